From Coq Require Import ZArith List Lia Bool.
From Verif Require Import Word Word_Proofs Pool_Model Pool_Proofs Pool_Steal Barrier_Model Barrier_Spec.
Import ListNotations.
Local Open Scope Z_scope.

Lemma eq32_true a b : 0 <= a < 2 ^ 32 -> 0 <= b < 2 ^ 32 -> (eq32 a b = true <-> a = b).
Proof. intros Ha Hb. unfold eq32. rewrite !wrap_small by auto. apply Z.eqb_eq. Qed.

Lemma some_inj {A} (a b : A) : Some a = Some b -> b = a. Proof. congruence. Qed.

Section Proto.
Variable rs : list round.
Variable n : Z.
Variable C : Z -> config.
Let T := Z.of_nat (length rs).
Let R := round_at rs.
Hypothesis Hn : 1 <= n <= 60.
Hypothesis HT : 1 <= T < 2 ^ 32 - 1.
Hypothesis H_wait : forall e, 1 <= e <= T -> r_wait (R e) = c_wait (C (e - 1)).
Hypothesis H_bar : forall e, 1 <= e <= T -> r_barrier (R e) = c_barrier (C e).
Hypothesis H_exit : forall e, 0 <= e <= T -> c_exit (C e) = (e =? T).
Hypothesis H_C : forall e, 1 <= e <= T -> C (e + 1) = match r_latch (R e) with Some c => c | None => C e end.
Hypothesis H_C01 : C 1 = C 0.

Definition arrived (s : bstate) (w : Z) : bool :=
  match w_pc s w with WExit => true | _ => w_epoch s w =? m_epoch s + 1 end.
Definition woken (s : bstate) (w : Z) : Prop :=
  match m_pc s with
  | MIdle | MRun | MBar _ _ => True
  | MWake k => r_wait (R (m_epoch s)) = WtSeparate /\ w < k
  | _ => False
  end.
Definition pre_wake (p : mpc) : bool := match p with MSet _ | MReset _ => true | MWake k => k =? 0 | _ => false end.

Definition bt (s : bstate) : barrier_t := r_barrier (R (m_epoch s)).
Definition leader (g w : Z) : Prop := w mod g = 0.

Definition inround (s : bstate) (w : Z) : Prop :=
  let e := m_epoch s in
  match w_pc s w with
  | WWait => w_cfg s w = C (e - 1) /\ w_latched s w = C e
  | WLatch => woken s w /\ w_cfg s w = C (e - 1) /\ w_latched s w = C e
  | WRun => woken s w /\ w_cfg s w = C e /\ w_latched s w = C e
  | WArrive j => woken s w /\ w_cfg s w = C e /\ w_latched s w = C (e + 1) /\ w < j /\
      (j = w + 1 \/ group (bt s) <> 1 /\ j <= Z.min (w + group (bt s)) n) /\ (forall i, w < i < j -> arrived s i = true)
  | WExit => False
  end.

Definition WOK (s : bstate) (w : Z) : Prop :=
  let e := m_epoch s in
  (w_pc s w = WExit /\ w_epoch s w = e /\ c_exit (C e) = true) \/
  (w_pc s w = WWait /\ w_epoch s w = e + 1 /\ w_cfg s w = C e /\ w_latched s w = C (e + 1) /\ c_exit (C e) = false) \/
  (w_epoch s w = e /\ m_pc s <> MIdle /\ inround s w).

Definition count (s : bstate) (sh : Z) : Z :=
  sumw (Z.to_nat n) (fun w => b2z (arrived s w && (w mod shards (bt s) =? sh))).

Definition post_reset (p : mpc) : bool := match p with MWake _ | MRun | MBar _ _ => true | _ => false end.

Record BInv (s : bstate) : Prop := {
  J_e : 0 <= m_epoch s <= T;
  J_e1 : m_pc s <> MIdle -> 1 <= m_epoch s;
  J_w : forall w, 0 <= w < n -> WOK s w;
  J_aw : forall w, 0 <= w < n -> arrived s w = true -> woken s w;
  J_idle : m_pc s = MIdle -> forall w, 0 <= w < n -> arrived s w = true;
  J_tasks : forall k, 0 <= k < 5 -> match m_pc s with MIdle => False | MSet j => k < j | _ => True end -> b_tasks s k = m_epoch s;
  J_w0 : b_waiter s 0 = if pre_wake (m_pc s) then m_epoch s - 1 else m_epoch s;
  J_wi : forall w, 0 <= w < n -> 0 <= b_waiter s w <= m_epoch s /\ (~ woken s w -> b_waiter s w <= m_epoch s - 1) /\
     (m_pc s <> MIdle -> woken s w -> r_wait (R (m_epoch s)) = WtSeparate -> b_waiter s w = m_epoch s);
  J_bi : forall w, 0 <= w < n -> 0 <= b_barrier s w <= m_epoch s /\ (arrived s w = false -> b_barrier s w <= m_epoch s - 1) /\
     (arrived s w = true -> m_pc s <> MIdle -> shards (bt s) = 0 -> b_barrier s w = m_epoch s);
  J_reset : forall k, m_pc s = MReset k -> forall sh, 0 <= sh < k -> b_barrier s (63 - sh) = 0;
  J_cnt : post_reset (m_pc s) = true -> forall sh, 0 <= sh < shards (bt s) -> b_barrier s (63 - sh) = count s sh;
  J_grp : m_pc s <> MIdle -> group (bt s) <> 1 -> forall w i, 0 <= w < n -> w mod group (bt s) = 0 -> arrived s w = true ->
     w < i < Z.min (w + group (bt s)) n -> arrived s i = true;
  J_pc : match m_pc s with
    | MSet k => 0 <= k < 5
    | MReset k => 0 <= k < shards (bt s)
    | MWake k => 0 <= k < n /\ (r_wait (R (m_epoch s)) <> WtSeparate -> k = 0)
    | MBar k acc => 
      if shards (bt s) =? 0 then 0 <= k /\ k mod group (bt s) = 0 /\ forall w, 0 <= w < Z.min k n -> arrived s w = true
      else 0 <= k <= shards (bt s) /\ 0 <= acc <= sumw (Z.to_nat k) (count s)
    | _ => True end
}.

Lemma shards_cases b : shards b = 0 \/ shards b = 1 \/ shards b = 2 \/ shards b = 4.
Proof. destruct b; cbn; auto. Qed.
Lemma group_cases b : group b = 1 \/ group b = 2 \/ group b = 4.
Proof. destruct b; cbn; auto. Qed.
Lemma group_shards b : group b <> 1 -> shards b = 0.
Proof. destruct b; cbn; auto; lia. Qed.

Lemma count_nonneg s sh : 0 <= count s sh.
Proof. apply sumw_nonneg. intros w _. unfold b2z. destruct (_ && _); lia. Qed.
Lemma count_le s sh : count s sh <= n.
Proof.
  unfold count. replace n with (Z.of_nat (Z.to_nat n) * 1) at 2 by lia. rewrite <- sumw_const. apply sumw_le.
  intros w _. unfold b2z. destruct (_ && _); lia.
Qed.
Lemma count_ext s s' sh : (forall w, 0 <= w < n -> arrived s' w = arrived s w) -> bt s' = bt s -> count s' sh = count s sh.
Proof. intros H E. unfold count. rewrite E. apply sumw_ext. intros w Hw. rewrite H by lia. reflexivity. Qed.

(** sum over the shards = number of arrived workers *)
Lemma shard_total K (f : Z -> bool) m : 0 < K ->
  sumw (Z.to_nat K) (fun sh => sumw m (fun w => b2z (f w && (w mod K =? sh)))) = sumw m (fun w => b2z (f w)).
Proof.
  intros HK. induction m as [|m IH].
  - cbn [sumw]. rewrite sumw_const. lia.
  - cbn [sumw].
    assert (A : forall j g h, sumw j (fun x => g x + h x) = sumw j g + sumw j h).
    { induction j as [|j IHj]; intros g h; [reflexivity|]. cbn [sumw]. rewrite IHj. lia. }
    rewrite A, IH. f_equal.
    pose proof (Z.mod_pos_bound (Z.of_nat m) K HK) as MB.
    rewrite (sumw_upd (Z.to_nat K) (fun _ => 0) (fun x => b2z (f (Z.of_nat m) && (Z.of_nat m mod K =? x))) (Z.of_nat m mod K)).
    + rewrite sumw_const, Z.eqb_refl, andb_true_r. lia.
    + lia.
    + intros x Hx. destruct (Z.eqb_spec (Z.of_nat m mod K) x); [congruence|]. rewrite andb_false_r. reflexivity.
Qed.

Lemma sum_full m (f : Z -> bool) : sumw m (fun w => b2z (f w)) = Z.of_nat m -> forall w, 0 <= w < Z.of_nat m -> f w = true.
Proof.
  induction m as [|m IH]; intros H w Hw; [lia|]. cbn [sumw] in H.
  assert (L : sumw m (fun w => b2z (f w)) <= Z.of_nat m).
  { replace (Z.of_nat m) with (Z.of_nat m * 1) by lia. rewrite <- sumw_const. apply sumw_le. intros x _. unfold b2z. destruct (f x); lia. }
  unfold b2z at 2 in H. destruct (f (Z.of_nat m)) eqn:E; [|lia].
  destruct (Z.eq_dec w (Z.of_nat m)) as [->|]; [exact E|]. apply IH; lia.
Qed.

Lemma full_sum m (f : Z -> bool) : (forall w, 0 <= w < Z.of_nat m -> f w = true) -> sumw m (fun w => b2z (f w)) = Z.of_nat m.
Proof.
  intros H. rewrite (sumw_ext m _ (fun _ => 1)); [rewrite sumw_const; lia|]. intros w Hw. rewrite H by auto. reflexivity.
Qed.

Lemma counts_full s : shards (bt s) <> 0 -> sumw (Z.to_nat (shards (bt s))) (count s) = n ->
  forall w, 0 <= w < n -> arrived s w = true.
Proof.
  intros HK H w Hw. unfold count in H. rewrite shard_total in H by (destruct (shards_cases (bt s)); lia).
  apply (sum_full (Z.to_nat n) (arrived s)); lia.
Qed.
Lemma full_counts s : shards (bt s) <> 0 -> (forall w, 0 <= w < n -> arrived s w = true) ->
  sumw (Z.to_nat (shards (bt s))) (count s) = n.
Proof.
  intros HK H. unfold count. rewrite shard_total by (destruct (shards_cases (bt s)); lia).
  rewrite full_sum; [lia|]. intros; apply H; lia.
Qed.

(** WOK and arrival *)
Lemma WOK_arrived s w : m_pc s <> MIdle -> WOK s w -> arrived s w = true ->
  (w_pc s w = WExit /\ w_epoch s w = m_epoch s /\ c_exit (C (m_epoch s)) = true) \/
  (w_pc s w = WWait /\ w_epoch s w = m_epoch s + 1 /\ w_cfg s w = C (m_epoch s) /\ w_latched s w = C (m_epoch s + 1) /\ c_exit (C (m_epoch s)) = false).
Proof.
  intros Hm [H|[H|(E & _ & H)]] Ha; auto. exfalso. unfold arrived in Ha. unfold inround in H.
  destruct (w_pc s w); try (apply Z.eqb_eq in Ha; lia). contradiction.
Qed.
Lemma WOK_not_arrived s w : WOK s w -> arrived s w = false -> w_epoch s w = m_epoch s /\ m_pc s <> MIdle /\ inround s w.
Proof.
  intros [(P & _)|[(P & E & _)|H]] Ha; auto; exfalso; unfold arrived in Ha; rewrite P in Ha; [discriminate|].
  apply Z.eqb_neq in Ha. lia.
Qed.

(* ------------------------------------------------------------ init *)
Lemma BInv_init cfg : C 0 = cfg -> BInv (b_init cfg).
Proof.
  intros E. constructor; cbn; try lia; try discriminate; try tauto.
  - intros w Hw. right. left. cbn. repeat split; auto; try congruence. rewrite (H_exit 0) by lia. destruct (Z.eqb_spec 0 T); [lia|reflexivity].
Qed.

(* ------------------------------------------------------------ main steps *)
Lemma woken_le s s' w : m_epoch s' = m_epoch s -> (m_pc s' = MRun \/ exists k a, m_pc s' = MBar k a) -> woken s' w.
Proof. intros _ [H|(k & a & H)]; unfold woken; rewrite H; exact I. Qed.

(** a main step that changes neither the epoch nor any worker *)
Lemma arrived_main s s' w : m_epoch s' = m_epoch s -> w_pc s' = w_pc s -> w_epoch s' = w_epoch s -> arrived s' w = arrived s w.
Proof. intros E P W. unfold arrived. rewrite E, P, W. reflexivity. Qed.

Lemma WOK_main s s' w : m_epoch s' = m_epoch s -> w_pc s' = w_pc s -> w_epoch s' = w_epoch s ->
  w_cfg s' = w_cfg s -> w_latched s' = w_latched s -> m_pc s' <> MIdle ->
  (woken s w -> woken s' w) -> WOK s w -> WOK s' w.
Proof.
  intros E P W Cf L Hm Hw HW. unfold WOK in *. rewrite E, P, W, Cf, L.
  destruct HW as [H|[H|(H1 & H2 & H3)]]; [left; exact H|right; left; exact H|right; right].
  split; [exact H1|]. split; [exact Hm|]. unfold inround in *. rewrite E, P, Cf, L. unfold bt in *. rewrite E.
  destruct (w_pc s w); try tauto.
  destruct H3 as (A1 & A2 & A3 & A4 & A5 & A6). repeat split; auto.
  intros i Hi. rewrite (arrived_main s s') by auto. auto.
Qed.

Lemma not_idle_dec (p : mpc) : p = MIdle \/ p <> MIdle.
Proof. destruct p; [left; reflexivity|right; discriminate..]. Qed.

Lemma BInv_idle s s' : BInv s -> m_pc s = MIdle -> step_main rs n s = Some s' -> BInv s'.
Proof.
  intros [Je Je1 Jw Jaw Jid Jt Jw0 Jwi Jbi Jr Jc Jg Jp] Hp Hs. unfold step_main in Hs. rewrite Hp in *.
  destruct (Z.ltb_spec (m_epoch s) (Z.of_nat (length rs))) as [Hlt|]; [|discriminate]. apply some_inj in Hs; subst s'. fold T in Hlt.
  assert (HW : forall w, 0 <= w < n -> w_pc s w = WWait /\ w_epoch s w = m_epoch s + 1 /\ w_cfg s w = C (m_epoch s) /\ w_latched s w = C (m_epoch s + 1)).
  { intros w Hw. destruct (Jw w Hw) as [(_ & _ & X)|[X|(_ & X & _)]].
    - rewrite H_exit in X by lia. apply Z.eqb_eq in X. lia.
    - tauto.
    - congruence. }
  assert (HA : forall w, 0 <= w < n -> arrived (set_m (set_epoch s (m_epoch s + 1)) (MSet 0)) w = false).
  { intros w Hw. destruct (HW w Hw) as (P & E & _). unfold arrived. cbn [w_pc w_epoch m_epoch set_m set_epoch]. rewrite P, E.
    apply Z.eqb_neq. lia. }
  constructor; cbn [m_epoch m_pc b_tasks b_waiter b_barrier set_m set_epoch post_reset pre_wake].
  - lia.
  - lia.
  - intros w Hw. right. right. destruct (HW w Hw) as (P & E & Cf & L). cbn [m_epoch m_pc w_epoch set_m set_epoch].
    split; [exact E|]. split; [discriminate|]. unfold inround. cbn [m_epoch w_pc w_cfg w_latched set_m set_epoch]. rewrite P.
    replace (m_epoch s + 1 - 1) with (m_epoch s) by lia. auto.
  - intros w Hw H. rewrite HA in H by auto. discriminate.
  - discriminate.
  - intros k Hk H. lia.
  - cbn in Jw0. lia.
  - intros w Hw. destruct (Jwi w Hw) as (A & _). split; [lia|]. split; [lia|]. intros _ []. 
  - intros w Hw. destruct (Jbi w Hw) as (A & _). split; [lia|]. split; [lia|]. intros H. rewrite HA in H by auto. discriminate.
  - discriminate.
  - discriminate.
  - intros _ _ w i Hw _ H. rewrite HA in H by auto. discriminate.
  - lia.
Qed.

Ltac mainstep := cbn [m_epoch m_pc b_tasks b_waiter b_barrier w_pc w_epoch w_cfg w_latched set_m set_epoch set_task set_barrier set_waiter post_reset pre_wake].

Lemma all_before s : BInv s -> (forall w, ~ woken s w) -> forall w, 0 <= w < n -> arrived s w = false.
Proof. intros H Hn' w Hw. destruct (arrived s w) eqn:E; [|reflexivity]. exfalso. apply (Hn' w), (J_aw s H w Hw E). Qed.

Lemma BInv_set s s' k : BInv s -> m_pc s = MSet k -> step_main rs n s = Some s' -> BInv s'.
Proof.
  intros HI Hp Hs. pose proof (all_before s HI ltac:(intros w; unfold woken; rewrite Hp; tauto)) as HA.
  destruct HI as [Je Je1 Jw Jaw Jid Jt Jw0 Jwi Jbi Jr Jc Jg Jp]. unfold step_main in Hs. rewrite Hp in *.
  apply some_inj in Hs; subst s'. specialize (Je1 ltac:(discriminate)).
  set (p' := if k + 1 <? 5 then MSet (k + 1) else after_reset (r_barrier (round_at rs (m_epoch s))) 0).
  assert (Hp' : (p' = MSet (k + 1) /\ k + 1 < 5) \/ (p' = MReset 0 /\ 0 < shards (bt s) /\ k = 4) \/ (p' = MWake 0 /\ shards (bt s) = 0 /\ k = 4)).
  { unfold p', after_reset, bt, R. destruct (Z.ltb_spec (k + 1) 5); [left; auto|].
    destruct (Z.ltb_spec 0 (shards (r_barrier (round_at rs (m_epoch s))))); [right; left|right; right]; repeat split; auto; try lia.
    destruct (shards_cases (r_barrier (round_at rs (m_epoch s)))); lia. }
  assert (NW : forall w, 0 <= w < n -> ~ woken (set_m (set_task s k (m_epoch s)) p') w).
  { intros w Hw. unfold woken. mainstep. destruct Hp' as [[-> _]|[[-> _]|[-> _]]]; try tauto. intros [_ H]. lia. }
  assert (NI : p' <> MIdle) by (destruct Hp' as [[-> _]|[[-> _]|[-> _]]]; discriminate).
  assert (EA : forall w, arrived (set_m (set_task s k (m_epoch s)) p') w = arrived s w) by (intros; apply arrived_main; reflexivity).
  constructor; mainstep.
  - lia.
  - lia.
  - intros w Hw. apply (WOK_main s); try reflexivity; auto. mainstep. unfold woken. rewrite Hp. tauto.
  - intros w Hw. rewrite EA, HA by auto. discriminate.
  - congruence.
  - intros i Hi H. unfold fupd. destruct (Z.eqb_spec i k); [reflexivity|]. apply Jt; [auto|].
    destruct Hp' as [[E1 _]|[(E1 & _ & ->)|(E1 & _ & ->)]]; rewrite E1 in H; lia.
  - cbn in Jw0. destruct Hp' as [[-> _]|[[-> _]|[-> _]]]; cbn; exact Jw0.
  - intros w Hw. destruct (Jwi w Hw) as (A1 & A2 & _). split; [exact A1|]. split; [intros _; apply A2; unfold woken; rewrite Hp; tauto|].
    intros _ X. exfalso. apply (NW w Hw X).
  - intros w Hw. rewrite EA. destruct (Jbi w Hw) as (A1 & A2 & A3). split; [exact A1|]. split; [exact A2|]. rewrite HA by auto. discriminate.
  - intros i E sh Hsh. destruct Hp' as [[E1 _]|[(E1 & _)|(E1 & _)]]; rewrite E1 in E; inversion E; subst; lia.
  - intros E sh Hsh. destruct Hp' as [[E1 _]|[(E1 & _)|(E1 & Z0 & _)]]; rewrite E1 in E; try discriminate.
    exfalso. unfold bt in *. cbn in Hsh. lia.
  - intros _ _ w i Hw _ H. rewrite EA, HA in H by auto. discriminate.
  - destruct Hp' as [[-> ?]|[(-> & ? & _)|(-> & _)]]; unfold bt in *; mainstep; lia.
Qed.

Lemma BInv_reset s s' k : BInv s -> m_pc s = MReset k -> step_main rs n s = Some s' -> BInv s'.
Proof.
  intros HI Hp Hs. pose proof (all_before s HI ltac:(intros w; unfold woken; rewrite Hp; tauto)) as HA.
  destruct HI as [Je Je1 Jw Jaw Jid Jt Jw0 Jwi Jbi Jr Jc Jg Jp]. unfold step_main in Hs. rewrite Hp in *.
  apply some_inj in Hs; subst s'. specialize (Je1 ltac:(discriminate)).
  set (p' := after_reset (r_barrier (round_at rs (m_epoch s))) (k + 1)).
  assert (Hp' : (p' = MReset (k + 1) /\ k + 1 < shards (bt s)) \/ (p' = MWake 0 /\ shards (bt s) = k + 1)).
  { unfold p', after_reset, bt, R in *. destruct (Z.ltb_spec (k + 1) (shards (r_barrier (round_at rs (m_epoch s))))); [left|right]; split; auto; lia. }
  assert (Hs4 : shards (bt s) <= 4) by (destruct (shards_cases (bt s)); lia).
  set (s' := set_m (set_barrier s (kMaxThreads - k) 0) p').
  assert (NW : forall w, 0 <= w < n -> ~ woken s' w).
  { intros w Hw. unfold woken, s'. mainstep. destruct Hp' as [[-> _]|[-> _]]; try tauto. intros [_ H]. lia. }
  assert (NI : p' <> MIdle) by (destruct Hp' as [[-> _]|[-> _]]; discriminate).
  assert (EA : forall w, arrived s' w = arrived s w) by (intros; apply arrived_main; reflexivity).
  assert (EB : forall w, 0 <= w < n -> b_barrier s' w = b_barrier s w).
  { intros w Hw. unfold s'. mainstep. unfold kMaxThreads. apply fupd_ne. lia. }
  assert (BZ : forall sh, 0 <= sh <= k -> b_barrier s' (63 - sh) = 0).
  { intros sh Hsh. unfold s'. mainstep. unfold fupd, kMaxThreads. destruct (Z.eqb_spec (63 - sh) (63 - k)); [reflexivity|].
    apply (Jr k eq_refl). lia. }
  assert (ME : m_epoch s' = m_epoch s) by reflexivity.
  assert (MP : m_pc s' = p') by reflexivity.
  assert (EBT : bt s' = bt s) by reflexivity.
  assert (X1 : w_pc s' = w_pc s) by reflexivity. assert (X2 : w_epoch s' = w_epoch s) by reflexivity.
  assert (X3 : w_cfg s' = w_cfg s) by reflexivity. assert (X4 : w_latched s' = w_latched s) by reflexivity.
  assert (X5 : b_tasks s' = b_tasks s) by reflexivity. assert (X6 : b_waiter s' = b_waiter s) by reflexivity.
  clearbody s'. clearbody p'.
  constructor; rewrite ?ME, ?MP, ?X5, ?X6, ?EBT.
  - lia.
  - lia.
  - intros w Hw. apply (WOK_main s); auto; [congruence|]. unfold woken at 1. rewrite Hp. tauto.
  - intros w Hw. rewrite EA, HA by auto. discriminate.
  - congruence.
  - intros i Hi H. apply Jt; auto.
  - cbn in Jw0. destruct Hp' as [[-> _]|[-> _]]; cbn; exact Jw0.
  - intros w Hw. destruct (Jwi w Hw) as (A1 & A2 & _). split; [exact A1|]. split; [intros _; apply A2; unfold woken; rewrite Hp; tauto|].
    intros _ X. exfalso. apply (NW w Hw X).
  - intros w Hw. rewrite EA, EB by auto. destruct (Jbi w Hw) as (A1 & A2 & A3). split; [exact A1|]. split; [exact A2|]. rewrite HA by auto. discriminate.
  - intros i E sh Hsh. destruct Hp' as [[E1 _]|(E1 & _)]; rewrite E1 in E; inversion E; subst. apply BZ. lia.
  - intros E sh Hsh. destruct Hp' as [[E1 _]|(E1 & Z0)]; rewrite E1 in E; try discriminate.
    rewrite BZ by lia.
    unfold count. rewrite (sumw_ext _ _ (fun _ => 0)); [rewrite sumw_const; lia|].
    intros w Hw. rewrite EA, HA by lia. reflexivity.
  - intros _ _ w i Hw _ H. rewrite EA, HA in H by auto. discriminate.
  - destruct Hp' as [[-> ?]|(-> & _)]; lia.
Qed.

Lemma BInv_wake s s' k : BInv s -> m_pc s = MWake k -> step_main rs n s = Some s' -> BInv s'.
Proof.
  intros [Je Je1 Jw Jaw Jid Jt Jw0 Jwi Jbi Jr Jc Jg Jp] Hp Hs. unfold step_main in Hs. rewrite Hp in *.
  specialize (Je1 ltac:(discriminate)). destruct Jp as [Hk Hk0].
  set (e := m_epoch s) in *.
  assert (exists p' slot, s' = set_m (set_waiter s slot e) p' /\
     ((r_wait (R e) = WtSeparate /\ slot = k /\ (p' = MWake (k + 1) /\ k + 1 < n \/ p' = MRun /\ k + 1 = n)) \/
      (r_wait (R e) <> WtSeparate /\ slot = 0 /\ k = 0 /\ p' = MRun))) as (p' & slot & -> & Hp').
  { unfold R in *. destruct (r_wait (round_at rs e)) eqn:Ew; apply some_inj in Hs; subst s'.
    - exists MRun, 0. split; [reflexivity|]. right. specialize (Hk0 ltac:(discriminate)). repeat split; auto; discriminate.
    - exists MRun, 0. split; [reflexivity|]. right. specialize (Hk0 ltac:(discriminate)). repeat split; auto; discriminate.
    - eexists _, k. split; [reflexivity|]. left. split; [auto|]. split; [auto|].
      destruct (Z.ltb_spec (k + 1) n); [left|right]; split; auto; lia. }
  set (s' := set_m (set_waiter s slot e) p').
  assert (NI : p' <> MIdle) by (destruct Hp' as [(_ & _ & [(-> & _)|(-> & _)])|(_ & _ & _ & ->)]; discriminate).
  assert (Wmono : forall w, 0 <= w < n -> woken s w -> woken s' w).
  { intros w Hw. unfold woken, s'. mainstep. rewrite Hp. fold e. intros [W1 W2].
    destruct Hp' as [(_ & _ & [(-> & _)|(-> & _)])|(_ & _ & _ & ->)]; auto. split; [auto|lia]. }
  assert (Wback : forall w, 0 <= w < n -> r_wait (R e) = WtSeparate -> woken s' w -> w = k \/ woken s w).
  { intros w Hw Ew. unfold woken, s'. mainstep. rewrite Hp. fold e.
    destruct Hp' as [(_ & _ & [(-> & _)|(-> & ?)])|(N & _)]; [| |congruence].
    - intros [_ H]. destruct (Z.eq_dec w k); [left; auto|right; split; [auto|lia]].
    - intros _. destruct (Z.eq_dec w k); [left; auto|right; split; [auto|lia]]. }
  assert (EA : forall w, arrived s' w = arrived s w) by (intros; apply arrived_main; reflexivity).
  assert (ME : m_epoch s' = e) by reflexivity.
  assert (MP : m_pc s' = p') by reflexivity.
  assert (EBT : bt s' = bt s) by reflexivity.
  assert (X1 : w_pc s' = w_pc s) by reflexivity. assert (X2 : w_epoch s' = w_epoch s) by reflexivity.
  assert (X3 : w_cfg s' = w_cfg s) by reflexivity. assert (X4 : w_latched s' = w_latched s) by reflexivity.
  assert (X5 : b_tasks s' = b_tasks s) by reflexivity. assert (X6 : b_waiter s' = fupd (b_waiter s) slot e) by reflexivity.
  assert (X7 : b_barrier s' = b_barrier s) by reflexivity.
  assert (XW : forall w, woken s' w <-> match p' with MIdle | MRun | MBar _ _ => True | MWake k => r_wait (R e) = WtSeparate /\ w < k | _ => False end).
  { intros w. unfold woken. rewrite MP, ME. tauto. }
  clearbody s'.
  constructor; rewrite ?ME, ?MP, ?X5, ?X6, ?X7, ?EBT.
  - lia.
  - lia.
  - intros w Hw. apply (WOK_main s); auto. congruence.
  - intros w Hw H. rewrite EA in H. apply Wmono; auto.
  - congruence.
  - intros i Hi H. apply Jt; auto.
  - unfold fupd. cbn [pre_wake] in Jw0.
    destruct (Z.eqb_spec 0 slot) as [<-|Hs0].
    + destruct Hp' as [(_ & Ek & [(-> & _)|(-> & _)])|(_ & _ & _ & ->)]; cbn [pre_wake]; try reflexivity.
      destruct (Z.eqb_spec (k + 1) 0); [lia|reflexivity].
    + destruct Hp' as [(_ & Ek & [(-> & _)|(-> & _)])|(_ & Es & _)]; [| |lia]; subst slot; cbn [pre_wake];
        destruct (Z.eqb_spec k 0); try lia. destruct (Z.eqb_spec (k + 1) 0); [lia|exact Jw0].
  - intros w Hw. destruct (Jwi w Hw) as (A1 & A2 & A3).
    unfold fupd. 
    destruct (Z.eqb_spec w slot) as [->|Hs0].
    + split; [lia|]. split; [|auto]. intros NW. exfalso. apply NW. apply XW.
      destruct Hp' as [(E1 & -> & [(-> & _)|(-> & _)])|(_ & _ & _ & ->)]; auto. split; [auto|lia].
    + split; [lia|]. split.
      * intros NW. apply A2. intros W. apply NW, Wmono; auto.
      * intros _ W E. destruct (Wback w Hw E W) as [->|W']; [|apply A3; auto; discriminate].
        destruct Hp' as [(_ & -> & _)|(N & _)]; congruence.
  - intros w Hw. rewrite EA. destruct (Jbi w Hw) as (A1 & A2 & A3). split; [exact A1|]. split; [exact A2|].
    intros H1 _ H2. apply A3; auto. discriminate.
  - intros i E. destruct Hp' as [(_ & _ & [(E1 & _)|(E1 & _)])|(_ & _ & _ & E1)]; rewrite E1 in E; discriminate.
  - intros _ sh Hsh. rewrite (count_ext s s') by auto. apply (Jc eq_refl). exact Hsh.
  - intros _ Hg w i Hw Hl Ha Hi. rewrite EA in *. eapply (Jg ltac:(discriminate) Hg w i); eauto.
  - destruct Hp' as [(E & _ & [(-> & ?)|(-> & _)])|(_ & _ & _ & ->)]; auto. split; [lia|]. congruence.
Qed.

Lemma BInv_run s s' : BInv s -> m_pc s = MRun -> step_main rs n s = Some s' -> BInv s'.
Proof.
  intros [Je Je1 Jw Jaw Jid Jt Jw0 Jwi Jbi Jr Jc Jg Jp] Hp Hs. unfold step_main in Hs. rewrite Hp in *.
  specialize (Je1 ltac:(discriminate)). apply some_inj in Hs; subst s'.
  assert (EA : forall w, arrived (set_m s (MBar 0 0)) w = arrived s w) by (intros; apply arrived_main; reflexivity).
  assert (EBT : bt (set_m s (MBar 0 0)) = bt s) by reflexivity.
  constructor; mainstep.
  - exact Je.
  - intros _; exact Je1.
  - intros w Hw. apply (WOK_main s); try reflexivity; auto. discriminate.
  - intros w Hw _. exact I.
  - discriminate.
  - exact Jt.
  - exact Jw0.
  - intros w Hw. destruct (Jwi w Hw) as (A1 & A2 & A3). split; [auto|]. split; [intros X; exfalso; apply X; exact I|].
    intros _ _. apply A3; [discriminate|]. unfold woken. rewrite Hp. exact I.
  - intros w Hw. rewrite EA, EBT. destruct (Jbi w Hw) as (A1 & A2 & A3). split; [exact A1|]. split; [exact A2|].
    intros H1 _ H2. apply A3; auto. discriminate.
  - discriminate.
  - intros _ sh Hsh. rewrite EBT in Hsh. rewrite (count_ext s) by auto. apply (Jc eq_refl). exact Hsh.
  - intros _ Hg w i Hw Hl Ha Hi. rewrite EBT in *. rewrite EA in *. eapply (Jg ltac:(discriminate) Hg w i); eauto.
  - rewrite EBT. destruct (Z.eqb_spec (shards (bt s)) 0).
    + split; [lia|]. split; [destruct (group_cases (bt s)) as [->|[->| ->]]; reflexivity|]. intros; lia.
    + destruct (shards_cases (bt s)); cbn; lia.
Qed.

(** leaving the barrier *)
Lemma BInv_leave s k acc : BInv s -> m_pc s = MBar k acc -> (forall w, 0 <= w < n -> arrived s w = true) -> BInv (set_m s MIdle).
Proof.
  intros [Je Je1 Jw Jaw Jid Jt Jw0 Jwi Jbi Jr Jc Jg Jp] Hp HA. rewrite Hp in *.
  specialize (Je1 ltac:(discriminate)).
  assert (EA : forall w, arrived (set_m s MIdle) w = arrived s w) by (intros; apply arrived_main; reflexivity).
  constructor; mainstep.
  - exact Je.
  - congruence.
  - intros w Hw. destruct (WOK_arrived s w ltac:(rewrite Hp; discriminate) (Jw w Hw) (HA w Hw)) as [X|X]; [left|right; left]; exact X.
  - intros w Hw _. exact I.
  - intros _ w Hw. rewrite EA. auto.
  - intros ? ? [].
  - exact Jw0.
  - intros w Hw. destruct (Jwi w Hw) as (A1 & A2 & A3). split; [auto|]. split; [intros X; exfalso; apply X; exact I|]. tauto.
  - intros w Hw. rewrite EA. destruct (Jbi w Hw) as (A1 & A2 & A3). split; [exact A1|]. split; [exact A2|]. tauto.
  - discriminate.
  - discriminate.
  - congruence.
  - exact I.
Qed.

Lemma BInv_bar_move s k acc k' acc' : BInv s -> m_pc s = MBar k acc -> 
  (if shards (bt s) =? 0 then 0 <= k' /\ k' mod group (bt s) = 0 /\ forall w, 0 <= w < Z.min k' n -> arrived s w = true
      else 0 <= k' <= shards (bt s) /\ 0 <= acc' <= sumw (Z.to_nat k') (count s)) ->
  BInv (set_m s (MBar k' acc')).
Proof.
  intros [Je Je1 Jw Jaw Jid Jt Jw0 Jwi Jbi Jr Jc Jg Jp] Hp H. rewrite Hp in *.
  specialize (Je1 ltac:(discriminate)).
  assert (EA : forall w, arrived (set_m s (MBar k' acc')) w = arrived s w) by (intros; apply arrived_main; reflexivity).
  assert (EBT : bt (set_m s (MBar k' acc')) = bt s) by reflexivity.
  constructor; mainstep.
  - exact Je.
  - intros _; exact Je1.
  - intros w Hw. apply (WOK_main s); try reflexivity; auto. discriminate.
  - intros w Hw _. exact I.
  - discriminate.
  - exact Jt.
  - exact Jw0.
  - intros w Hw. destruct (Jwi w Hw) as (A1 & A2 & A3). split; [auto|]. split; [intros X; exfalso; apply X; exact I|].
    intros _ _. apply A3; [discriminate|]. unfold woken. rewrite Hp. exact I.
  - intros w Hw. rewrite EA, EBT. destruct (Jbi w Hw) as (A1 & A2 & A3). split; [exact A1|]. split; [exact A2|].
    intros H1 _ H2. apply A3; auto. discriminate.
  - discriminate.
  - intros _ sh Hsh. rewrite EBT in Hsh. rewrite (count_ext s) by auto. apply (Jc eq_refl). exact Hsh.
  - intros _ Hg w i Hw Hl Ha Hi. rewrite EBT in *. rewrite EA in *. eapply (Jg ltac:(discriminate) Hg w i); eauto.
  - rewrite EBT. destruct (shards (bt s) =? 0).
    + destruct H as (A & B & D). split; [auto|]. split; [auto|]. intros w Hw. rewrite EA. auto.
    + destruct H as (A & B). split; [exact A|]. rewrite (sumw_ext _ _ (count s)); [exact B|]. intros; apply count_ext; auto.
Qed.

Lemma slot_arrived s w : BInv s -> 0 <= w < n -> eq32 (m_epoch s) (b_barrier s w) = true -> arrived s w = true.
Proof.
  intros HI Hw E. destruct (J_bi s HI w Hw) as (A1 & A2 & _). pose proof (J_e s HI).
  apply eq32_true in E; [|lia|lia]. destruct (arrived s w); [reflexivity|]. specialize (A2 eq_refl). lia.
Qed.

Lemma BInv_bar s s' k acc : BInv s -> m_pc s = MBar k acc -> step_main rs n s = Some s' -> BInv s'.
Proof.
  intros HI Hp Hs. unfold step_main in Hs. rewrite Hp in Hs. fold R in Hs. change (r_barrier (R (m_epoch s))) with (bt s) in Hs.
  pose proof (J_pc s HI) as Jp. rewrite Hp in Jp.
  destruct (Z.eqb_spec (shards (bt s)) 0) as [K0|K0].
  - destruct Jp as (P1 & P2 & P3). destruct (Z.ltb_spec k n).
    + destruct (eq32 (m_epoch s) (b_barrier s k)) eqn:Eg; [|discriminate]. apply some_inj in Hs; subst s'.
      pose proof (slot_arrived s k HI ltac:(lia) Eg) as Ak.
      apply (BInv_bar_move s k acc); auto. rewrite K0. cbn [Z.eqb].
      pose proof (group_cases (bt s)) as GC.
      split; [lia|]. split.
      * rewrite <- Zplus_mod_idemp_r, Z_mod_same_full, Z.add_0_r. exact P2.
      * intros w Hw. destruct (Z_lt_dec w k); [apply P3; lia|]. destruct (Z.eq_dec w k) as [->|]; [exact Ak|].
        destruct (Z.eq_dec (group (bt s)) 1) as [G1|G1]; [lia|].
        apply (J_grp s HI ltac:(rewrite Hp; discriminate) G1 k w); auto; lia.
    + apply some_inj in Hs; subst s'. apply (BInv_leave s k acc); auto. intros w Hw. apply P3. lia.
  - destruct Jp as (P1 & P2). destruct (Z.ltb_spec k (shards (bt s))).
    + apply some_inj in Hs; subst s'. apply (BInv_bar_move s k acc); auto.
      destruct (Z.eqb_spec (shards (bt s)) 0); [lia|]. split; [lia|].
      unfold kMaxThreads. rewrite (J_cnt s HI) by (rewrite ?Hp; auto; lia).
      replace (Z.to_nat (k + 1)) with (S (Z.to_nat k)) by lia. cbn [sumw]. rewrite Z2Nat.id by lia.
      pose proof (count_nonneg s k). pose proof (count_le s k).
      assert (B : sumw (Z.to_nat k) (count s) <= 4 * 60).
      { apply Z.le_trans with (Z.of_nat (Z.to_nat k) * 60); [|destruct (shards_cases (bt s)); lia].
        rewrite <- sumw_const. apply sumw_le. intros x _. pose proof (count_le s x). lia. }
      rewrite wrap_small by lia. lia.
    + destruct (Z.eqb_spec acc n) as [->|]; apply some_inj in Hs; subst s'.
      * apply (BInv_leave s k n); auto. apply counts_full; auto.
        assert (k = shards (bt s)) as Ek by lia. rewrite Ek in *.
        assert (L : sumw (Z.to_nat (shards (bt s))) (count s) <= n); [|lia].
        unfold count. rewrite shard_total by lia. replace n with (Z.of_nat (Z.to_nat n) * 1) at 2 by lia.
        rewrite <- sumw_const. apply sumw_le. intros w _. unfold b2z. destruct (arrived s w); lia.
      * apply (BInv_bar_move s k acc); auto. destruct (Z.eqb_spec (shards (bt s)) 0); [lia|]. cbn. lia.
Qed.

Lemma BInv_main s s' : BInv s -> step_main rs n s = Some s' -> BInv s'.
Proof.
  intros HI Hs. destruct (m_pc s) as [|k|k|k| |k acc] eqn:Hp.
  - eapply BInv_idle; eauto. - eapply BInv_set; eauto. - eapply BInv_reset; eauto.
  - eapply BInv_wake; eauto. - eapply BInv_run; eauto. - eapply BInv_bar; eauto.
Qed.

(* ------------------------------------------------------------ worker steps *)
(** a step of worker w that does not arrive *)
Lemma BInv_priv s w p c l : BInv s -> 0 <= w < n -> arrived s w = false -> p <> WExit ->
  inround (set_w s w (w_epoch s w) p c l) w -> BInv (set_w s w (w_epoch s w) p c l).
Proof.
  intros [Je Je1 Jw Jaw Jid Jt Jw0 Jwi Jbi Jr Jc Jg Jp] Hw Ha Hpx Hin.
  destruct (WOK_not_arrived s w (Jw w Hw) Ha) as (Ee & NI & _).
  set (s' := set_w s w (w_epoch s w) p c l) in *.
  assert (EA : forall x, arrived s' x = arrived s x).
  { intros x. destruct (Z.eq_dec x w) as [->|Hx].
    - rewrite Ha. unfold arrived, s'. cbn [w_pc w_epoch m_epoch set_w]. rewrite !fupd_eq, Ee.
      destruct p; try (apply Z.eqb_neq; lia). congruence.
    - unfold arrived, s'. cbn [w_pc w_epoch m_epoch set_w]. rewrite !fupd_ne by auto. reflexivity. }
  assert (X1 : forall x, x <> w -> w_pc s' x = w_pc s x) by (intros; apply fupd_ne; auto).
  assert (X2 : forall x, x <> w -> w_epoch s' x = w_epoch s x) by (intros; apply fupd_ne; auto).
  assert (X3 : forall x, x <> w -> w_cfg s' x = w_cfg s x) by (intros; apply fupd_ne; auto).
  assert (X4 : forall x, x <> w -> w_latched s' x = w_latched s x) by (intros; apply fupd_ne; auto).
  assert (XE : w_epoch s' w = m_epoch s) by (unfold s'; cbn [w_epoch set_w]; rewrite fupd_eq; exact Ee).
  assert (ME : m_epoch s' = m_epoch s) by reflexivity. assert (MP : m_pc s' = m_pc s) by reflexivity.
  assert (MB : b_barrier s' = b_barrier s) by reflexivity. assert (MW : b_waiter s' = b_waiter s) by reflexivity.
  assert (MT : b_tasks s' = b_tasks s) by reflexivity. assert (EBT : bt s' = bt s) by reflexivity.
  assert (WK : forall x, woken s' x <-> woken s x) by (intros; unfold woken; rewrite ME, MP; tauto).
  clearbody s'.
  assert (EC : forall sh, count s' sh = count s sh) by (intros; apply count_ext; auto).
  constructor; rewrite ?ME, ?MP, ?MB, ?MW, ?MT, ?EBT.
  - exact Je.
  - exact Je1.
  - intros x Hx. destruct (Z.eq_dec x w) as [->|Hxw].
    + right. right. rewrite ME, MP. auto.
    + specialize (Jw x Hx). unfold WOK, inround in *. rewrite ME, MP, EBT, X1, X2, X3, X4 by auto.
      destruct Jw as [H|[H|(H1 & H2 & H3)]]; [left; auto|right; left; auto|right; right]. split; [auto|]. split; [auto|].
      destruct (w_pc s x); [exact H3|rewrite WK; exact H3|rewrite WK; exact H3| |exact H3].
      rewrite WK. destruct H3 as (A1 & A2 & A3 & A4 & A5 & A6). repeat split; auto. intros i Hi. rewrite EA. auto.
  - intros x Hx H. rewrite EA in H. rewrite WK. auto.
  - intros Hm x Hx. rewrite EA. auto.
  - exact Jt.
  - exact Jw0.
  - intros x Hx. rewrite WK. auto.
  - intros x Hx. rewrite EA. auto.
  - exact Jr.
  - intros H sh Hsh. rewrite EC. auto.
  - intros H1 H2 x i Hx Hl. rewrite !EA. eauto.
  - destruct (m_pc s); auto. destruct (shards (bt s) =? 0).
    + destruct Jp as (A & B & D). split; [auto|]. split; [auto|]. intros x Hx. rewrite EA. auto.
    + rewrite (sumw_ext _ _ (count s)); auto.
Qed.

Lemma shard_land w K : 0 <= w -> K = 1 \/ K = 2 \/ K = 4 -> Z.land w (K - 1) = w mod K.
Proof.
  intros Hw [->|[->| ->]].
  - change (1 - 1) with (Z.ones 0). rewrite Z.land_ones by lia. reflexivity.
  - change (2 - 1) with (Z.ones 1). rewrite Z.land_ones by lia. reflexivity.
  - change (4 - 1) with (Z.ones 2). rewrite Z.land_ones by lia. reflexivity.
Qed.

(** the arrival step: [nb] is the new content of the barrier slots *)
Lemma BInv_arrive s w j slot v : BInv s -> 0 <= w < n -> w_pc s w = WArrive j ->
  (shards (bt s) <> 0 /\ slot = 63 - w mod shards (bt s) /\ v = b_barrier s slot + 1 \/
   shards (bt s) = 0 /\ slot = w /\ v = m_epoch s /\
     (group (bt s) <> 1 -> w mod group (bt s) = 0 -> Z.min (w + group (bt s)) n <= j)) ->
  BInv (w_next (set_barrier s slot v) w).
Proof.
  intros [Je Je1 Jw Jaw Jid Jt Jw0 Jwi Jbi Jr Jc Jg Jp] Hw Pc Hsl.
  assert (Ha : arrived s w = false /\ w_epoch s w = m_epoch s /\ m_pc s <> MIdle /\ inround s w).
  { destruct (Jw w Hw) as [(P & _)|[(P & _)|(E & N & I)]]; try congruence.
    split; [|auto]. unfold arrived. rewrite Pc. apply Z.eqb_neq. lia. }
  destruct Ha as (Ha & Ee & NI & Hin). unfold inround in Hin. rewrite Pc in Hin.
  destruct Hin as (HW & Hcfg & Hlat & Hj & Hjb & Hgrp). specialize (Je1 NI).
  assert (exists ep p, w_next (set_barrier s slot v) w = set_w (set_barrier s slot v) w ep p (C (m_epoch s)) (C (m_epoch s + 1)) /\
    (p = WExit /\ ep = m_epoch s /\ c_exit (C (m_epoch s)) = true \/ p = WWait /\ ep = m_epoch s + 1 /\ c_exit (C (m_epoch s)) = false)) as (ep & p & -> & Hep).
  { unfold w_next. cbn [w_cfg w_epoch w_latched set_barrier]. rewrite Hcfg, Hlat, Ee.
    destruct (c_exit (C (m_epoch s))) eqn:Ex; eexists _, _; (split; [reflexivity|]); auto. }
  set (s' := set_w (set_barrier s slot v) w ep p (C (m_epoch s)) (C (m_epoch s + 1))).
  assert (EA : forall x, arrived s' x = (x =? w) || arrived s x).
  { intros x. unfold arrived, s'. cbn [w_pc w_epoch m_epoch set_w set_barrier]. unfold fupd.
    destruct (Z.eqb_spec x w) as [->|Hx]; [|reflexivity]. cbn [orb].
    destruct Hep as [(-> & _)|(-> & -> & _)]; [reflexivity|apply Z.eqb_refl]. }
  assert (X1 : forall x, x <> w -> w_pc s' x = w_pc s x) by (intros; apply fupd_ne; auto).
  assert (X2 : forall x, x <> w -> w_epoch s' x = w_epoch s x) by (intros; apply fupd_ne; auto).
  assert (X3 : forall x, x <> w -> w_cfg s' x = w_cfg s x) by (intros; apply fupd_ne; auto).
  assert (X4 : forall x, x <> w -> w_latched s' x = w_latched s x) by (intros; apply fupd_ne; auto).
  assert (XP : w_pc s' w = p /\ w_epoch s' w = ep /\ w_cfg s' w = C (m_epoch s) /\ w_latched s' w = C (m_epoch s + 1)).
  { unfold s'. cbn [w_pc w_epoch w_cfg w_latched set_w]. rewrite !fupd_eq. auto. }
  assert (ME : m_epoch s' = m_epoch s) by reflexivity. assert (MP : m_pc s' = m_pc s) by reflexivity.
  assert (MB : b_barrier s' = fupd (b_barrier s) slot v) by reflexivity. assert (MW : b_waiter s' = b_waiter s) by reflexivity.
  assert (MT : b_tasks s' = b_tasks s) by reflexivity. assert (EBT : bt s' = bt s) by reflexivity.
  assert (WK : forall x, woken s' x <-> woken s x) by (intros; unfold woken; rewrite ME, MP; tauto).
  clearbody s'.
  assert (Mono : forall x, arrived s x = true -> arrived s' x = true) by (intros x H; rewrite EA, H; apply orb_true_r).
  pose proof (shards_cases (bt s)) as SC.
  assert (EC : forall sh, count s' sh = count s sh + b2z (w mod shards (bt s) =? sh)).
  { intros sh. unfold count. rewrite EBT.
    rewrite (sumw_upd (Z.to_nat n) (fun x => b2z (arrived s x && (x mod shards (bt s) =? sh)))
       (fun x => b2z (arrived s' x && (x mod shards (bt s) =? sh))) w).
    - rewrite EA, Z.eqb_refl, Ha. cbn. lia.
    - lia.
    - intros x Hx. rewrite EA. destruct (Z.eqb_spec x w); [congruence|reflexivity]. }
  assert (PR : post_reset (m_pc s) = true).
  { unfold woken in HW. destruct (m_pc s); try contradiction; try congruence; reflexivity. }
  constructor; rewrite ?ME, ?MP, ?MW, ?MT, ?EBT.
  - exact Je.
  - intros _; exact Je1.
  - intros x Hx. destruct (Z.eq_dec x w) as [->|Hxw].
    + unfold WOK. rewrite ME. destruct XP as (-> & -> & -> & ->).
      destruct Hep as [(-> & -> & X)|(-> & -> & X)]; [left; auto|right; left; auto].
    + specialize (Jw x Hx). unfold WOK, inround in *. rewrite ME, MP, EBT, X1, X2, X3, X4 by auto.
      destruct Jw as [H|[H|(H1 & H2 & H3)]]; [left; auto|right; left; auto|right; right]. split; [auto|]. split; [auto|].
      destruct (w_pc s x); [exact H3|rewrite WK; exact H3|rewrite WK; exact H3| |exact H3].
      rewrite WK. destruct H3 as (A1 & A2 & A3 & A4 & A5 & A6). repeat split; auto.
  - intros x Hx H. rewrite EA in H. rewrite WK. destruct (Z.eqb_spec x w) as [->|]; auto.
  - intros Hm. congruence.
  - exact Jt.
  - exact Jw0.
  - intros x Hx. rewrite WK. auto.
  - intros x Hx. rewrite MB. destruct (Jbi x Hx) as (A1 & A2 & A3).
    destruct Hsl as [(K0 & -> & ->)|(K0 & -> & -> & HG)].
    + pose proof (Z.mod_pos_bound w (shards (bt s)) ltac:(lia)).
      rewrite fupd_ne by lia. split; [auto|]. split.
      * rewrite EA. intros H1. apply A2. destruct (arrived s x); [rewrite orb_true_r in H1; discriminate|reflexivity].
      * intros _ _ K1. congruence.
    + unfold fupd. rewrite EA. destruct (Z.eqb_spec x w) as [->|]; cbn [orb]; [|auto].
      split; [lia|]. split; [discriminate|auto].
  - intros k Hk. rewrite Hk in PR. discriminate.
  - intros _ sh Hsh. rewrite MB, EC. destruct Hsl as [(K0 & -> & ->)|(K0 & _)]; [|lia].
    rewrite (Jc PR (w mod shards (bt s))) by (apply Z.mod_pos_bound; lia).
    unfold fupd, b2z. destruct (Z.eqb_spec (w mod shards (bt s)) sh) as [<-|Hne].
    + rewrite Z.eqb_refl. reflexivity.
    + destruct (Z.eqb_spec (63 - sh) (63 - w mod shards (bt s))); [lia|]. rewrite Z.add_0_r. apply Jc; auto.
  - intros _ G1 x i Hx Hl. rewrite EA. destruct (Z.eqb_spec x w) as [->|Hxw].
    + intros _ Hi. apply Mono. destruct Hsl as [(K0 & _)|(_ & _ & _ & HG)]; [rewrite group_shards in K0 by auto; congruence|].
      apply Hgrp. specialize (HG G1 Hl). lia.
    + cbn [orb]. intros H Hi. apply Mono. apply (Jg NI G1 x i); auto.
  - destruct (m_pc s); auto. destruct (shards (bt s) =? 0).
    + destruct Jp as (A & B & D). split; [auto|]. split; [auto|]. intros x Hx. auto.
    + destruct Jp as (A & B). split; [auto|].
      assert (sumw (Z.to_nat k) (count s) <= sumw (Z.to_nat k) (count s')); [|lia].
      apply sumw_le. intros x _. rewrite EC. unfold b2z. destruct (_ =? _); lia.
Qed.

(** a waiting worker that may proceed has been woken *)
Lemma guard_woken s w : BInv s -> 0 <= w < n -> w_pc s w = WWait -> woken_guard s w = true ->
  arrived s w = false /\ woken s w.
Proof.
  intros HI Hw P G. pose proof (J_e s HI) as Je. pose proof (J_w0 s HI) as W0. pose proof (J_wi s HI w Hw) as (Wa & Wb & Wc).
  destruct (J_wi s HI 0 ltac:(lia)) as (W0a & _).
  destruct (J_w s HI w Hw) as [(X & _)|[(_ & E & Cf & L & Ex)|(E & NI & HR)]]; [congruence| |].
  - (* arrived: cannot be woken *)
    exfalso. unfold woken_guard in G. rewrite Cf, E in G.
    assert (b_waiter s 0 = m_epoch s) as W0'.
    { rewrite W0. assert (A : arrived s w = true) by (unfold arrived; rewrite P, E; apply Z.eqb_refl).
      pose proof (J_aw s HI w Hw A) as K. unfold woken in K. pose proof (J_pc s HI) as Jp. destruct (m_pc s); cbn; try contradiction; try reflexivity.
      destruct (Z.eqb_spec k 0); [lia|reflexivity]. }
    destruct (c_wait (C (m_epoch s))).
    + rewrite negb_true_iff in G. rewrite W0' in G. replace (m_epoch s + 1 - 1) with (m_epoch s) in G by lia.
      unfold eq32 in G. rewrite Z.eqb_refl in G. discriminate.
    + apply eq32_true in G; lia.
    + apply eq32_true in G; lia.
  - assert (Ha : arrived s w = false) by (unfold arrived; rewrite P; apply Z.eqb_neq; lia).
    split; [exact Ha|]. unfold inround in HR. rewrite P in HR. destruct HR as [Cf _].
    pose proof (J_e1 s HI NI). unfold woken_guard in G. rewrite Cf, E in G. rewrite <- H_wait in G by lia.
    pose proof (J_pc s HI) as Jp.
    assert (NS : r_wait (R (m_epoch s)) <> WtSeparate -> b_waiter s 0 = m_epoch s -> woken s w).
    { intros N W. rewrite W0 in W. unfold woken. destruct (m_pc s); cbn [pre_wake] in W; try lia; auto. 
      destruct Jp as [_ Hk]. rewrite (Hk N) in W. cbn in W. lia. }
    destruct (r_wait (R (m_epoch s))) eqn:Ew.
    + apply NS; [discriminate|]. rewrite negb_true_iff in G. rewrite W0 in *. destruct (pre_wake (m_pc s)); [|reflexivity].
      unfold eq32 in G. rewrite Z.eqb_refl in G. discriminate.
    + apply NS; [discriminate|]. apply eq32_true in G; lia.
    + apply eq32_true in G; [|lia|lia].
      assert (D : woken s w \/ ~ woken s w).
      { unfold woken. destruct (m_pc s); auto. rewrite Ew. destruct (Z_lt_dec w k); [left; auto|right; lia]. }
      destruct D as [D|D]; [exact D|]. specialize (Wb D). lia.
Qed.

Lemma woken_tasks s : BInv s -> (exists w, woken s w) -> m_pc s <> MIdle -> forall k, 0 <= k < 5 -> b_tasks s k = m_epoch s.
Proof.
  intros HI (w & W) NI k Hk. apply (J_tasks s HI k Hk). unfold woken in W. destruct (m_pc s); auto; try congruence; contradiction.
Qed.

Lemma BInv_worker s s' w : BInv s -> 0 <= w < n -> step_worker rs n w s = Some s' -> BInv s'.
Proof.
  intros HI Hw Hs. unfold step_worker in Hs.
  pose proof (J_e s HI) as Je. 
  assert (NA : w_pc s w <> WWait -> w_pc s w <> WExit -> arrived s w = false /\ w_epoch s w = m_epoch s /\ m_pc s <> MIdle /\ inround s w).
  { intros N1 N2. destruct (J_w s HI w Hw) as [(P & _)|[(P & _)|(E & N & I)]]; try congruence.
    split; [|auto]. unfold arrived. destruct (w_pc s w); try congruence; apply Z.eqb_neq; lia. }
  destruct (w_pc s w) eqn:P.
  - (* WWait *)
    destruct (woken_guard s w) eqn:G; [|discriminate]. apply some_inj in Hs; subst s'.
    destruct (guard_woken s w HI Hw P G) as [Ha W].
    destruct (WOK_not_arrived s w (J_w s HI w Hw) Ha) as (Ee & NI & HR).
    apply BInv_priv; auto; [discriminate|]. unfold inround in *. rewrite P in HR.
    cbn [w_pc w_cfg w_latched m_epoch set_w]. rewrite !fupd_eq. split; [exact W|exact HR].
  - destruct NA as (Ha & Ee & NI & HR); try discriminate. apply some_inj in Hs; subst s'.
    apply BInv_priv; auto; [discriminate|]. unfold inround in *. rewrite P in HR.
    cbn [w_pc w_cfg w_latched m_epoch set_w]. rewrite !fupd_eq. destruct HR as (W & _ & L). split; [exact W|auto].
  - destruct NA as (Ha & Ee & NI & HR); try discriminate. apply some_inj in Hs; subst s'.
    pose proof (J_e1 s HI NI) as E1.
    apply BInv_priv; auto; [discriminate|]. unfold inround in *. rewrite P in HR.
    cbn [w_pc w_cfg w_latched m_epoch set_w]. rewrite !fupd_eq. destruct HR as (W & Cf & L). split; [exact W|]. split; [exact Cf|].
    rewrite (woken_tasks s HI (ex_intro _ w W) NI 2) by lia. fold R. split; [|split; [lia|split; [left; reflexivity|intros; lia]]].
    rewrite L. rewrite H_C by lia. reflexivity.
  - (* WArrive *)
    destruct NA as (Ha & Ee & NI & HR); try discriminate.
    pose proof (J_e1 s HI NI) as E1.
    unfold inround in HR. rewrite P in HR. destruct HR as (W & Cf & L & Hj & Hjb & Hg).
    assert (EB : c_barrier (w_cfg s w) = bt s) by (unfold bt; rewrite H_bar, Cf by lia; reflexivity).
    rewrite EB in Hs.
    pose proof (shards_cases (bt s)) as SC. pose proof (group_cases (bt s)) as GC.
    destruct (Z.eqb_spec (shards (bt s)) 0) as [K0|K0]; cbn [negb] in Hs.
    + destruct (negb (group (bt s) =? 1) && (w mod group (bt s) =? 0) && (j <? Z.min (w + group (bt s)) n)) eqn:Cond.
      * destruct (eq32 (w_epoch s w) (b_barrier s j)) eqn:Eq; [|discriminate]. apply some_inj in Hs; subst s'.
        apply andb_prop in Cond as [Cond C3]. apply andb_prop in Cond as [C1 C2].
        apply negb_true_iff, Z.eqb_neq in C1. apply Z.eqb_eq in C2. apply Z.ltb_lt in C3.
        rewrite Ee in Eq. pose proof (slot_arrived s j HI ltac:(lia) Eq) as Aj.
        apply BInv_priv; auto; [discriminate|]. unfold inround.
        cbn [w_pc w_cfg w_latched m_epoch set_w]. rewrite !fupd_eq. split; [exact W|]. split; [exact Cf|]. split; [exact L|].
        split; [lia|]. split; [right; split; [exact C1|unfold bt in *; cbn [m_epoch set_w]; lia]|].
        intros i Hi. assert (arrived s i = true) as Ai by (destruct (Z.eq_dec i j) as [->|]; [exact Aj|apply Hg; lia]).
        unfold arrived in *. cbn [w_pc w_epoch m_epoch set_w]. rewrite !fupd_ne by lia. exact Ai.
      * apply some_inj in Hs; subst s'. apply (BInv_arrive s w j); auto. right. split; [auto|]. split; [auto|]. split; [auto|].
        intros G1 GL. apply andb_false_iff in Cond as [Cond|Cond]; [|apply Z.ltb_ge in Cond; lia].
        exfalso. rewrite GL in Cond. destruct (Z.eqb_spec (group (bt s)) 1); [lia|discriminate].
    + apply some_inj in Hs; subst s'. rewrite shard_land by lia. unfold kMaxThreads.
      apply (BInv_arrive s w j); auto. left. split; [auto|]. split; [auto|].
      pose proof (Z.mod_pos_bound w (shards (bt s)) ltac:(lia)).
      assert (PR : post_reset (m_pc s) = true).
      { unfold woken in W. destruct (m_pc s); try contradiction; try congruence; reflexivity. }
      rewrite (J_cnt s HI PR) by lia. pose proof (count_nonneg s (w mod shards (bt s))). pose proof (count_le s (w mod shards (bt s))).
      apply wrap_small. lia.
  - discriminate.
Qed.

Lemma BInv_exec sched : forall s s', BInv s -> Forall (thread_ok n) sched -> bexec rs n sched s = Some s' -> BInv s'.
Proof.
  induction sched as [|t k IH]; intros s s' HI HF He.
  - injection He as <-. exact HI.
  - cbn in He. inversion HF as [|? ? Ht Hk]; subst. destruct (bstep rs n t s) as [s1|] eqn:Es; [|discriminate].
    apply (IH s1); auto. destruct t as [|w]; cbn in Es, Ht; [eapply BInv_main|eapply BInv_worker]; eauto.
Qed.

(* ------------------------------------------------------------ what it means *)
Lemma safety s : BInv s ->
  (forall w, 0 <= w < n -> main_returned s <= worker_finished s w <= main_returned s + 1) /\
  (forall w e, 0 <= w < n -> working s w e ->
     m_epoch s = e /\ m_pc s <> MIdle /\ 1 <= e <= T /\ (forall k, 0 <= k < 5 -> b_tasks s k = e) /\
     c_barrier (w_cfg s w) = r_barrier (R e)) /\
  (m_pc s = MRun -> forall k, 0 <= k < 5 -> b_tasks s k = m_epoch s).
Proof.
  intros HI. pose proof (J_e s HI) as Je. split; [|split].
  - intros w Hw. unfold main_returned, worker_finished.
    destruct (J_w s HI w Hw) as [(P & E & X)|[(P & E & X)|(E & NI & HR)]].
    + rewrite P, E. destruct (m_pc s); lia.
    + rewrite P, E. destruct (m_pc s); lia.
    + rewrite E. destruct (m_pc s) eqn:Hp; try congruence; destruct (w_pc s w); lia.
  - intros w e Hw (P & E). destruct (J_w s HI w Hw) as [(P' & _)|[(P' & _)|(E' & NI & HR)]]; try congruence.
    assert (m_epoch s = e) as <- by congruence. pose proof (J_e1 s HI NI). unfold inround in HR. rewrite P in HR. destruct HR as (W & Cf & _).
    split; [reflexivity|]. split; [exact NI|]. split; [lia|]. split.
    + apply woken_tasks; auto. exists w; auto.
    + rewrite Cf, H_bar by lia. reflexivity.
  - intros Hp k Hk. apply (J_tasks s HI k Hk). rewrite Hp. exact I.
Qed.

(* ------------------------------------------------------------ progress *)
Definition pcv (p : wpc) (w : Z) : Z :=
  match p with WWait => 9 | WLatch => 8 | WRun => 7 | WArrive j => 6 - (j - w - 1) | WExit => 0 end.
Definition pw (s : bstate) (w : Z) : Z :=
  match w_pc s w with WExit => 0 | p => 10 * (T + 1 - w_epoch s w) + pcv p w end.
Definition mpcv (s : bstate) : Z :=
  match m_pc s with
  | MIdle => 0
  | MSet k => 2 * n + 20 + (5 - k)
  | MReset k => 2 * n + 15 + (4 - k)
  | MWake k => n + 13 + (n - k)
  | MRun => n + 12
  | MBar k acc =>
    if shards (bt s) =? 0 then 1 + Z.max 0 (n - k)
    else if acc =? sumw (Z.to_nat k) (count s) then 1 + (shards (bt s) - k) else 10 - k
  end.
Definition total (s : bstate) : Z := 10 * sumw (Z.to_nat n) (pw s) + (T - m_epoch s) * (2 * n + 26) + mpcv s.

Lemma pw_nonneg s w : BInv s -> 0 <= w < n -> 0 <= pw s w.
Proof.
  intros HI Hw. unfold pw. pose proof (J_e s HI) as Je. pose proof (group_cases (bt s)).
  destruct (J_w s HI w Hw) as [(P & E & X)|[(P & E & _ & _ & X)|(E & NI & HR)]].
  - rewrite P. lia.
  - rewrite P, E. cbn [pcv]. rewrite H_exit in X by lia. apply Z.eqb_neq in X. lia.
  - unfold inround in HR. rewrite E. destruct (w_pc s w); cbn [pcv]; try lia.
Qed.
Lemma mpcv_nonneg s : BInv s -> 0 <= mpcv s.
Proof.
  intros HI. pose proof (J_pc s HI) as Jp. unfold mpcv. pose proof (shards_cases (bt s)).
  destruct (m_pc s); try lia. destruct (Z.eqb_spec (shards (bt s)) 0); [lia|]. destruct (_ =? _); lia.
Qed.
Lemma total_nonneg s : BInv s -> 0 <= total s.
Proof.
  intros HI. unfold total. pose proof (mpcv_nonneg s HI). pose proof (J_e s HI).
  assert (0 <= sumw (Z.to_nat n) (pw s)) by (apply sumw_nonneg; intros; apply pw_nonneg; auto; lia).
  assert (0 <= (T - m_epoch s) * (2 * n + 26)) by (apply Z.mul_nonneg_nonneg; lia). lia.
Qed.

Lemma mpcv_jump s s' : BInv s -> m_pc s' = m_pc s -> m_epoch s' = m_epoch s -> mpcv s' <= mpcv s + 8.
Proof.
  intros HI MP ME. pose proof (J_pc s HI) as Jp. unfold mpcv. assert (EB : bt s' = bt s) by (unfold bt; rewrite ME; reflexivity).
  rewrite MP, EB. pose proof (shards_cases (bt s)). destruct (m_pc s); try lia.
  destruct (Z.eqb_spec (shards (bt s)) 0); [lia|].
  destruct (_ =? sumw _ (count s')), (_ =? sumw _ (count s)); lia.
Qed.

Lemma total_worker s s' w : BInv s -> 0 <= w < n -> m_pc s' = m_pc s -> m_epoch s' = m_epoch s ->
  (forall x, x <> w -> pw s' x = pw s x) -> pw s' w < pw s w -> total s' < total s.
Proof.
  intros HI Hw MP ME Hx Hp. unfold total. rewrite ME. pose proof (mpcv_jump s s' HI MP ME).
  rewrite (sumw_upd (Z.to_nat n) (pw s) (pw s') w) by (auto; lia). lia.
Qed.

Lemma pw_other s w ep p c l x : x <> w -> pw (set_w s w ep p c l) x = pw s x.
Proof. intros H. unfold pw. cbn [w_pc w_epoch set_w]. rewrite !fupd_ne by auto. reflexivity. Qed.
Lemma pw_self s w ep p c l : pw (set_w s w ep p c l) w = match p with WExit => 0 | _ => 10 * (T + 1 - ep) + pcv p w end.
Proof. unfold pw. cbn [w_pc w_epoch set_w]. rewrite !fupd_eq. destruct p; reflexivity. Qed.

Lemma worker_dec s s' w : BInv s -> 0 <= w < n -> step_worker rs n w s = Some s' -> total s' < total s.
Proof.
  intros HI Hw Hs. pose proof (J_e s HI) as Je. pose proof (group_cases (bt s)) as GC. unfold step_worker in Hs.
  assert (LE : w_pc s w <> WExit -> w_epoch s w <= T).
  { intros N. destruct (J_w s HI w Hw) as [(P & _)|[(P & E & _ & _ & X)|(E & NI & HR)]]; [congruence| |lia].
    rewrite H_exit in X by lia. apply Z.eqb_neq in X. lia. }
  assert (PS : pw s w = match w_pc s w with WExit => 0 | p => 10 * (T + 1 - w_epoch s w) + pcv p w end) by (unfold pw; destruct (w_pc s w); reflexivity).
  destruct (w_pc s w) eqn:P.
  - destruct (woken_guard s w); [|discriminate]. apply some_inj in Hs; subst s'.
    apply (total_worker s _ w); auto; [intros; apply pw_other; auto|]. rewrite pw_self, PS. cbn [pcv]. lia.
  - apply some_inj in Hs; subst s'. apply (total_worker s _ w); auto; [intros; apply pw_other; auto|]. rewrite pw_self, PS. cbn [pcv]. lia.
  - apply some_inj in Hs; subst s'. apply (total_worker s _ w); auto; [intros; apply pw_other; auto|]. rewrite pw_self, PS. cbn [pcv]. lia.
  - assert (HJ : j <= w + 4 /\ w_epoch s w <= T).
    { split; [|apply LE; discriminate]. destruct (J_w s HI w Hw) as [(P' & _)|[(P' & _)|(E & NI & HR)]]; try congruence.
      unfold inround in HR. rewrite P in HR. destruct HR as (_ & _ & _ & _ & [->|[_ H]] & _); lia. }
    assert (NX : forall slot v, total (w_next (set_barrier s slot v) w) < total s).
    { intros slot v. unfold w_next. cbn [w_cfg w_epoch w_latched set_barrier].
      destruct (c_exit (w_cfg s w)); (apply (total_worker s _ w); auto; [intros; rewrite pw_other by auto; reflexivity|]);
        rewrite pw_self, PS; cbn [pcv]; lia. }
    destruct (negb (shards _ =? 0)); [apply some_inj in Hs; subst s'; apply NX|].
    destruct (_ && _).
    + destruct (eq32 _ _); [|discriminate]. apply some_inj in Hs; subst s'.
      apply (total_worker s _ w); auto; [intros; apply pw_other; auto|]. rewrite pw_self, PS. cbn [pcv]. lia.
    + apply some_inj in Hs; subst s'. apply NX.
  - discriminate.
Qed.

(** in the barrier phase an unarrived worker can move, except a leader waiting for its group *)
Lemma worker_can s k acc w : BInv s -> m_pc s = MBar k acc -> 0 <= w < n -> arrived s w = false ->
  (exists s', step_worker rs n w s = Some s') \/
  (exists j, w < j < n /\ j mod group (bt s) <> 0 /\ arrived s j = false).
Proof.
  intros HI Hp Hw Ha. pose proof (J_e s HI) as Je.
  destruct (WOK_not_arrived s w (J_w s HI w Hw) Ha) as (Ee & NI & HR). pose proof (J_e1 s HI NI) as E1.
  unfold step_worker. unfold inround in HR. destruct (w_pc s w) eqn:P; try (left; eexists; reflexivity).
  - left. assert (G : woken_guard s w = true).
    { destruct HR as [Cf _]. unfold woken_guard. rewrite Cf, Ee, <- H_wait by lia.
      pose proof (J_w0 s HI) as W0. rewrite Hp in W0. cbn [pre_wake] in W0.
      destruct (J_wi s HI w Hw) as (_ & _ & Wc).
      destruct (r_wait (R (m_epoch s))) eqn:Ew.
      - rewrite W0. destruct (eq32 (m_epoch s) (m_epoch s - 1)) eqn:Q; [|reflexivity]. apply eq32_true in Q; lia.
      - rewrite W0. unfold eq32. apply Z.eqb_refl.
      - rewrite Wc; [unfold eq32; apply Z.eqb_refl|auto|unfold woken; rewrite Hp; exact I|auto]. }
    rewrite G. eexists; reflexivity.
  - destruct HR as (W & Cf & L & Hj & Hjb & Hg).
    assert (EB : c_barrier (w_cfg s w) = bt s) by (unfold bt; rewrite H_bar, Cf by lia; reflexivity).
    rewrite EB. pose proof (group_cases (bt s)) as GC.
    destruct (Z.eqb_spec (shards (bt s)) 0) as [K0|K0]; cbn [negb]; [|left; eexists; reflexivity].
    destruct (negb (group (bt s) =? 1) && (w mod group (bt s) =? 0) && (j <? Z.min (w + group (bt s)) n)) eqn:Cond; [|left; eexists; reflexivity].
    destruct (eq32 (w_epoch s w) (b_barrier s j)) eqn:Eq; [left; eexists; reflexivity|]. right.
    apply andb_prop in Cond as [Cond C3]. apply andb_prop in Cond as [C1 C2].
    apply negb_true_iff, Z.eqb_neq in C1. apply Z.eqb_eq in C2. apply Z.ltb_lt in C3.
    exists j. split; [lia|]. split.
    + intros Hz. apply Z.mod_divide in C2; [|lia]. apply Z.mod_divide in Hz; [|lia].
      destruct C2 as (a & Ea), Hz as (b & Eb). destruct GC as [G|[G|G]]; rewrite G in *; lia.
    + destruct (arrived s j) eqn:Aj; [|reflexivity]. exfalso.
      destruct (J_bi s HI j ltac:(lia)) as (_ & _ & Hb). rewrite (Hb Aj NI K0), Ee in Eq. unfold eq32 in Eq. rewrite Z.eqb_refl in Eq. discriminate.
  - contradiction.
Qed.

Lemma nonleader_can s k acc w : BInv s -> m_pc s = MBar k acc -> 0 <= w < n -> arrived s w = false ->
  w mod group (bt s) <> 0 -> exists s', step_worker rs n w s = Some s'.
Proof.
  intros HI Hp Hw Ha Hl. destruct (w_pc s w) eqn:P.
  1,2,3,5: destruct (worker_can s k acc w HI Hp Hw Ha) as [H|(j & Hj & Hjl & Hja)]; auto;
    unfold step_worker; rewrite P; try (eexists; reflexivity).
  1: { (* WWait: the guard holds for every unarrived worker *)
    pose proof (J_e s HI) as Je. destruct (WOK_not_arrived s w (J_w s HI w Hw) Ha) as (Ee & NI & HR). pose proof (J_e1 s HI NI) as E1.
    unfold inround in HR. rewrite P in HR. destruct HR as [Cf _].
    assert (G : woken_guard s w = true).
    { unfold woken_guard. rewrite Cf, Ee, <- H_wait by lia.
      pose proof (J_w0 s HI) as W0. rewrite Hp in W0. cbn [pre_wake] in W0.
      destruct (J_wi s HI w Hw) as (_ & _ & Wc).
      destruct (r_wait (R (m_epoch s))) eqn:Ew.
      - rewrite W0. destruct (eq32 (m_epoch s) (m_epoch s - 1)) eqn:Q; [|reflexivity]. apply eq32_true in Q; lia.
      - rewrite W0. unfold eq32. apply Z.eqb_refl.
      - rewrite Wc; [unfold eq32; apply Z.eqb_refl|auto|unfold woken; rewrite Hp; exact I|auto]. }
    rewrite G. eexists; reflexivity. }
  1: { unfold arrived in Ha. rewrite P in Ha. discriminate. }
  pose proof (J_e s HI) as Je. destruct (WOK_not_arrived s w (J_w s HI w Hw) Ha) as (Ee & NI & HR). pose proof (J_e1 s HI NI) as E1.
  unfold inround in HR. rewrite P in HR. destruct HR as (_ & Cf & _).
  assert (EB : c_barrier (w_cfg s w) = bt s) by (unfold bt; rewrite H_bar, Cf by lia; reflexivity).
  unfold step_worker. rewrite P, EB.
  destruct (negb (shards (bt s) =? 0)); [eexists; reflexivity|].
  destruct (Z.eqb_spec (w mod group (bt s)) 0); [contradiction|]. rewrite andb_false_r. cbn [andb]. eexists; reflexivity.
Qed.

Lemma all_or_not s : (forall w, 0 <= w < n -> arrived s w = true) \/ exists w, 0 <= w < n /\ arrived s w = false.
Proof.
  assert (G : forall m : nat, (forall w, 0 <= w < Z.of_nat m -> arrived s w = true) \/ exists w, 0 <= w < Z.of_nat m /\ arrived s w = false).
  { induction m as [|m [IH|(w & Hw & E)]].
    - left; intros; lia.
    - destruct (arrived s (Z.of_nat m)) eqn:E.
      + left. intros w Hw. destruct (Z.eq_dec w (Z.of_nat m)) as [->|]; [auto|apply IH; lia].
      + right. exists (Z.of_nat m). split; [lia|auto].
    - right. exists w. split; [lia|auto]. }
  destruct (G (Z.to_nat n)) as [H|(w & Hw & E)]; [left; intros; apply H; lia|right; exists w; split; [lia|auto]].
Qed.

Lemma pw_main s s' : w_pc s' = w_pc s -> w_epoch s' = w_epoch s -> sumw (Z.to_nat n) (pw s') = sumw (Z.to_nat n) (pw s).
Proof. intros P E. apply sumw_ext. intros w _. unfold pw. rewrite P, E. reflexivity. Qed.

Lemma progress_dec s : BInv s -> ~ all_done rs n s ->
  exists t s', thread_ok n t /\ bstep rs n t s = Some s' /\ total s' < total s.
Proof.
  intros HI ND. pose proof (J_e s HI) as Je. pose proof (J_pc s HI) as Jp.
  assert (M : forall s', step_main rs n s = Some s' -> m_epoch s' = m_epoch s -> w_pc s' = w_pc s -> w_epoch s' = w_epoch s -> mpcv s' < mpcv s ->
     exists t s', thread_ok n t /\ bstep rs n t s = Some s' /\ total s' < total s).
  { intros s' Hs ME P E H. exists TMain, s'. split; [exact I|]. split; [exact Hs|]. unfold total. rewrite (pw_main s s'), ME by auto. lia. }
  destruct (m_pc s) as [|k|k|k| |k acc] eqn:Hp.
  - destruct (Z_lt_dec (m_epoch s) T) as [Hlt|Hge].
    + exists TMain. unfold bstep, step_main. rewrite Hp. fold T. destruct (Z.ltb_spec (m_epoch s) T); [|lia].
      eexists. split; [exact I|]. split; [reflexivity|]. unfold total.
      rewrite (pw_main s) by reflexivity. cbn [m_epoch set_m set_epoch]. unfold mpcv. cbn [m_pc set_m]. rewrite Hp. nia.
    + exfalso. apply ND. split; [auto|]. split; [fold T; lia|]. intros w Hw.
      destruct (J_w s HI w Hw) as [(P & _)|[(_ & _ & _ & _ & X)|(_ & N & _)]]; auto; [|congruence].
      rewrite H_exit in X by lia. apply Z.eqb_neq in X. lia.
  - eapply M; [unfold step_main; rewrite Hp; reflexivity|reflexivity..|].
    unfold mpcv. cbn [m_pc set_m]. rewrite Hp. unfold after_reset.
    destruct (k + 1 <? 5); [lia|]. destruct (0 <? shards _); lia.
  - eapply M; [unfold step_main; rewrite Hp; reflexivity|reflexivity..|].
    unfold mpcv. cbn [m_pc set_m]. rewrite Hp. unfold after_reset. pose proof (shards_cases (bt s)).
    destruct (k + 1 <? shards _); lia.
  - destruct Jp as [Hk Hk0]. destruct (r_wait (R (m_epoch s))) eqn:Ew;
      (eapply M; [unfold step_main; rewrite Hp; fold R; rewrite Ew; reflexivity|reflexivity..|]);
      unfold mpcv; cbn [m_pc set_m]; rewrite Hp; try lia.
    destruct (k + 1 <? n); lia.
  - eapply M; [unfold step_main; rewrite Hp; reflexivity|reflexivity..|].
    unfold mpcv. cbn [m_pc set_m]. rewrite Hp. change (bt (set_m s (MBar 0 0))) with (bt s). pose proof (shards_cases (bt s)).
    destruct (shards (bt s) =? 0); [lia|]. cbn [Z.to_nat sumw]. rewrite Z.eqb_refl. lia.
  - destruct (all_or_not s) as [All|(w & Hw & Ha)].
    + assert (NI : m_pc s <> MIdle) by (rewrite Hp; discriminate).
      destruct (Z.eqb_spec (shards (bt s)) 0) as [K0|K0].
      * pose proof (group_cases (bt s)). destruct (Z.ltb_spec k n) as [Hk|Hk].
        -- eapply M; [unfold step_main; rewrite Hp; fold R; change (r_barrier (R (m_epoch s))) with (bt s); rewrite K0; cbn [Z.eqb];
             destruct (Z.ltb_spec k n); [|lia];
             destruct (J_bi s HI k ltac:(lia)) as (_ & _ & Hb); rewrite (Hb (All k ltac:(lia)) NI K0);
             unfold eq32; rewrite Z.eqb_refl; reflexivity|reflexivity..|].
           unfold mpcv. cbn [m_pc set_m]. rewrite Hp. 
           change (bt (set_m s (MBar (k + group (bt s)) 0))) with (bt s). rewrite K0. cbn [Z.eqb]. lia.
        -- eapply M; [unfold step_main; rewrite Hp; fold R; change (r_barrier (R (m_epoch s))) with (bt s); rewrite K0; cbn [Z.eqb];
             destruct (Z.ltb_spec k n); [lia|reflexivity]|reflexivity..|].
           unfold mpcv. cbn [m_pc set_m]. rewrite Hp, K0. cbn [Z.eqb]. lia.
      * pose proof (shards_cases (bt s)) as SC. destruct Jp as [Hk Hacc].
        pose proof (full_counts s K0 All) as FC.
        assert (CE : forall k' a', count (set_m s (MBar k' a')) = count s) by reflexivity.
        destruct (Z.ltb_spec k (shards (bt s))) as [Hlt|Hge].
        -- eapply M; [unfold step_main; rewrite Hp; fold R; change (r_barrier (R (m_epoch s))) with (bt s);
             destruct (Z.eqb_spec (shards (bt s)) 0); [lia|]; destruct (Z.ltb_spec k (shards (bt s))); [reflexivity|lia]|reflexivity..|].
           unfold mpcv. cbn [m_pc set_m]. rewrite Hp. set (s1 := set_m _ _). change (bt s1) with (bt s). change (count s1) with (count s).
           destruct (Z.eqb_spec (shards (bt s)) 0); [lia|].
           unfold kMaxThreads. rewrite (J_cnt s HI) by (rewrite ?Hp; auto; lia).
           pose proof (count_nonneg s k). pose proof (count_le s k).
           assert (B : sumw (Z.to_nat k) (count s) <= 4 * 60).
           { apply Z.le_trans with (Z.of_nat (Z.to_nat k) * 60); [|lia].
             rewrite <- sumw_const. apply sumw_le. intros x _. pose proof (count_le s x). lia. }
           rewrite wrap_small by lia.
           replace (Z.to_nat (k + 1)) with (S (Z.to_nat k)) by lia. cbn [sumw]. rewrite Z2Nat.id by lia.
           destruct (Z.eqb_spec acc (sumw (Z.to_nat k) (count s))), (Z.eqb_spec (acc + count s k) (sumw (Z.to_nat k) (count s) + count s k)); lia.
        -- assert (k = shards (bt s)) as Ek by lia.
           destruct (Z.eqb_spec acc n) as [En|En].
           ++ eapply M; [unfold step_main; rewrite Hp; fold R; change (r_barrier (R (m_epoch s))) with (bt s);
               destruct (Z.eqb_spec (shards (bt s)) 0); [lia|]; destruct (Z.ltb_spec k (shards (bt s))); [lia|]; rewrite En, Z.eqb_refl; reflexivity|reflexivity..|].
             unfold mpcv. cbn [m_pc set_m]. rewrite Hp. destruct (Z.eqb_spec (shards (bt s)) 0); [lia|].
             destruct (_ =? _); lia.
           ++ eapply M; [unfold step_main; rewrite Hp; fold R; change (r_barrier (R (m_epoch s))) with (bt s);
               destruct (Z.eqb_spec (shards (bt s)) 0); [lia|]; destruct (Z.ltb_spec k (shards (bt s))); [lia|];
               destruct (Z.eqb_spec acc n); [lia|]; reflexivity|reflexivity..|].
             unfold mpcv. cbn [m_pc set_m]. rewrite Hp. change (bt (set_m s (MBar 0 0))) with (bt s). destruct (Z.eqb_spec (shards (bt s)) 0); [lia|].
             cbn [Z.to_nat sumw]. rewrite Z.eqb_refl. rewrite Ek in *. destruct (Z.eqb_spec acc (sumw (Z.to_nat (shards (bt s))) (count s))); lia.
    + destruct (worker_can s k acc w HI Hp Hw Ha) as [(s' & Hs)|(j & Hj & Hjl & Hja)].
      * exists (TWorker w), s'. split; [exact Hw|]. split; [exact Hs|]. eapply worker_dec; eauto.
      * destruct (nonleader_can s k acc j HI Hp ltac:(lia) Hja Hjl) as (s' & Hs).
        exists (TWorker j), s'. split; [cbn; lia|]. split; [exact Hs|]. apply (worker_dec s s' j); auto; lia.
Qed.

Lemma all_done_dec s : all_done rs n s \/ ~ all_done rs n s.
Proof.
  unfold all_done. destruct (not_idle_dec (m_pc s)) as [P|P]; [|right; tauto].
  destruct (Z.eq_dec (m_epoch s) (Z.of_nat (length rs))); [|right; tauto].
  assert (D : forall m : nat, (forall w, 0 <= w < Z.of_nat m -> w_pc s w = WExit) \/ exists w, 0 <= w < Z.of_nat m /\ w_pc s w <> WExit).
  { induction m as [|m [IH|(w & Hw & E)]].
    - left; intros; lia.
    - assert (Dec : w_pc s (Z.of_nat m) = WExit \/ w_pc s (Z.of_nat m) <> WExit) by (destruct (w_pc s (Z.of_nat m)); auto; right; discriminate).
      destruct Dec as [E|E].
      + left. intros w Hw. destruct (Z.eq_dec w (Z.of_nat m)) as [->|]; [auto|apply IH; lia].
      + right. exists (Z.of_nat m). split; [lia|auto].
    - right. exists w. split; [lia|auto]. }
  destruct (D (Z.to_nat n)) as [H|(w & Hw & E)].
  - left. repeat split; auto. intros w Hw. apply H. lia.
  - right. intros (_ & _ & H). apply E, H. lia.
Qed.

Lemma completes s : BInv s -> exists sched s', Forall (thread_ok n) sched /\ bexec rs n sched s = Some s' /\ all_done rs n s'.
Proof.
  intros HI. pose proof (total_nonneg s HI) as T0.
  remember (Z.to_nat (total s)) as f eqn:Ef. revert s HI T0 Ef.
  induction f as [f IH] using lt_wf_ind. intros s HI T0 Ef.
  destruct (all_done_dec s) as [D|D].
  - exists [], s. split; [constructor|]. split; [reflexivity|exact D].
  - destruct (progress_dec s HI D) as (t & s1 & Ht & Hs & Hlt).
    assert (HI1 : BInv s1) by (destruct t as [|w]; [eapply BInv_main|eapply BInv_worker]; eauto).
    pose proof (total_nonneg s1 HI1).
    destruct (IH (Z.to_nat (total s1)) ltac:(lia) s1 HI1 H eq_refl) as (sched & s' & F & E & DD).
    exists (t :: sched), s'. split; [constructor; auto|]. split; [cbn; rewrite Hs; exact E|exact DD].
Qed.
End Proto.
