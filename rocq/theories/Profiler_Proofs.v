From Coq Require Import ZArith List Bool Lia Permutation.
From Verif Require Import Profiler_Model Profiler_Spec.
Import ListNotations.
Open Scope Z_scope.

(** ** packing *)
Lemma land_mask : forall x k, 0 <= k -> Z.land x (2 ^ k - 1) = x mod 2 ^ k.
Proof. intros. replace (2 ^ k - 1) with (Z.ones k) by (rewrite Z.ones_equiv; lia). apply Z.land_ones; auto. Qed.
Lemma kmask : kTimestampMask = 2 ^ 39 - 1. Proof. reflexivity. Qed.
Lemma m64_small : forall x, 0 <= x < 2 ^ 64 -> m64 x = x.
Proof. intros. apply Z.mod_small. auto. Qed.
Lemma shl39 : forall o, Z.shiftl o 39 = o * 2 ^ 39.
Proof. intros. apply Z.shiftl_mul_pow2. lia. Qed.
Lemma shr39 : forall o, Z.shiftr o 39 = o / 2 ^ 39.
Proof. intros. apply Z.shiftr_div_pow2. lia. Qed.
Lemma pack : forall o x, 0 < o < 2 ^ 25 -> 0 <= x < 2 ^ 39 -> m64 (m64 (Z.shiftl o 39) + x) = o * 2 ^ 39 + x /\ (o * 2 ^ 39 + x) / 2 ^ 39 = o /\ (o * 2 ^ 39 + x) mod 2 ^ 39 = x.
Proof.
  intros o x Ho Hx. rewrite shl39. assert (0 <= o * 2 ^ 39 /\ o * 2 ^ 39 + x < 2 ^ 64) by (change (2 ^ 64) with (2 ^ 25 * 2 ^ 39); nia).
  rewrite (m64_small (o * 2 ^ 39)) by lia. rewrite m64_small by lia. split; auto. split.
  - rewrite Z.div_add_l by lia. rewrite Z.div_small by auto. lia.
  - rewrite Z.add_comm, Z.mod_add by lia. apply Z.mod_small. auto.
Qed.
Lemma pk_facts : forall o t, 0 < o < 2 ^ 25 -> pk_offset (pk_make o t) = o /\ pk_time (pk_make o t) = t mod 2 ^ 39.
Proof.
  intros o t Ho. unfold pk_make, pk_offset, pk_time. rewrite kmask. change kTimestampBits with 39. rewrite (land_mask t) by lia.
  destruct (pack o (t mod 2 ^ 39)) as (E1 & E2 & E3); auto. { apply Z.mod_pos_bound. lia. } rewrite E1. split.
  - rewrite shr39. auto. - rewrite land_mask by lia. auto.
Qed.
(** a well-formed accumulator *)
Definition acc_ok (z : acc) : Prop := 0 < acc_offset z < 2 ^ 25 /\ 0 <= acc_calls z < 2 ^ 39 /\ lo z = acc_offset z * 2 ^ 39 + acc_calls z /\ 0 <= hi z < 2 ^ 64.
Lemma acc_set_ok : forall o c d, 0 < o < 2 ^ 25 -> 0 <= c < 2 ^ 39 -> 0 <= d < 2 ^ 64 -> acc_ok (acc_set o c d) /\ acc_offset (acc_set o c d) = o /\ acc_calls (acc_set o c d) = c /\ acc_duration (acc_set o c d) = d.
Proof.
  intros o c d Ho Hc Hd. unfold acc_ok, acc_set, acc_offset, acc_calls, acc_duration. cbn [lo hi]. change kNumCallBits with 39.
  destruct (pack o c) as (E1 & E2 & E3); auto. rewrite E1, shr39, land_mask, E2, E3 by lia. lia.
Qed.
Lemma acc_add_ok : forall z c d, acc_ok z -> 0 <= c -> acc_calls z + c < 2 ^ 39 -> acc_ok (acc_add z c d) /\ acc_offset (acc_add z c d) = acc_offset z /\ acc_calls (acc_add z c d) = acc_calls z + c /\
  acc_duration (acc_add z c d) = (acc_duration z + d) mod 2 ^ 64.
Proof.
  intros z c d (Ho & Hc & Hl & Hh) Hc0 Hb. remember (acc_offset z) as o. remember (acc_calls z) as n.
  assert (E : m64 (lo z + c) = o * 2 ^ 39 + (n + c)). { rewrite Hl. rewrite m64_small; [lia|]. change (2 ^ 64) with (2 ^ 25 * 2 ^ 39). nia. }
  unfold acc_ok, acc_offset, acc_calls, acc_duration, acc_add. cbn [lo hi]. change kNumCallBits with 39.
  destruct (pack o (n + c)) as (E1 & E2 & E3); [lia | lia |]. rewrite E, shr39, land_mask, E2, E3 by lia. unfold m64. pose proof (Z.mod_pos_bound (hi z + d) (2 ^ 64)). lia.
Qed.

Arguments acc_add : simpl never. Arguments acc_offset : simpl never. Arguments acc_calls : simpl never. Arguments acc_duration : simpl never. Arguments acc_set : simpl never.
Arguments m64 : simpl never. Arguments Z.pow : simpl never.
(** ** sums *)
Lemma sumZ_app : forall a b, sumZ (a ++ b) = sumZ a + sumZ b.
Proof. induction a; simpl; intros; auto. rewrite IHa. lia. Qed.
Lemma calls_app : forall {K} eqb (key : Z -> K) a b k, calls_of eqb key (a ++ b) k = calls_of eqb key a k + calls_of eqb key b k.
Proof. intros. unfold calls_of. rewrite map_app. apply sumZ_app. Qed.
Lemma time_app : forall {K} eqb (key : Z -> K) a b k, time_of eqb key (a ++ b) k = time_of eqb key a k + time_of eqb key b k.
Proof. intros. unfold time_of. rewrite map_app. apply sumZ_app. Qed.
Definition nonneg (T : list (Z * Z * Z)) : Prop := forall s, In s T -> 0 <= snd (fst s).
Lemma sumZ_nonneg : forall l, (forall x, In x l -> 0 <= x) -> 0 <= sumZ l.
Proof. induction l; simpl; intros; [lia|]. pose proof (H a (or_introl eq_refl)). assert (0 <= sumZ l) by (apply IHl; auto). lia. Qed.
Lemma calls_le_total : forall {K} eqb (key : Z -> K) T k, nonneg T -> 0 <= calls_of eqb key T k <= total_calls T.
Proof.
  intros K eqb key T k. unfold calls_of, total_calls. induction T as [|s T IH]; intros HN; simpl; [lia|].
  assert (nonneg T) by (intros x Hx; apply HN; right; auto). specialize (IH H). pose proof (HN s (or_introl eq_refl)). destruct (eqb (key (s_off s)) k); lia.
Qed.
Lemma total_app : forall a b, total_calls (a ++ b) = total_calls a + total_calls b.
Proof. intros. unfold total_calls. rewrite map_app. apply sumZ_app. Qed.
Lemma not_in_zero : forall T o, ~ In o (map s_off T) -> calls_of Z.eqb zid T o = 0 /\ time_of Z.eqb zid T o = 0.
Proof.
  intros T o. unfold calls_of, time_of, zid. induction T as [|s T IH]; simpl; intros H; auto. destruct (Z.eqb_spec (s_off s) o); [tauto|]. destruct IH; auto; lia.
Qed.

Lemma calls_one : forall o c d k, calls_of Z.eqb zid [(o, c, d)] k = if o =? k then c else 0.
Proof. intros. unfold calls_of, zid, s_off. cbn [sumZ map fst snd]. destruct (o =? k); lia. Qed.
Lemma time_one : forall o c d k, time_of Z.eqb zid [(o, c, d)] k = if o =? k then d else 0.
Proof. intros. unfold time_of, zid, s_off. cbn [sumZ map fst snd]. destruct (o =? k); lia. Qed.
(** ** the table *)
Definition table_inv (zs : list acc) (T : list (Z * Z * Z)) : Prop := table_of zs T /\ (forall z, In z zs -> acc_ok z).
Lemma update_rest_spec : forall rest prev off calls dur,
  match update_rest prev rest off calls dur with
  | None => ~ In off (map acc_offset rest)
  | Some l => exists a z b, prev :: rest = a ++ z :: b /\ In z rest /\ acc_offset z = off /\ Permutation.Permutation l (a ++ acc_add z calls dur :: b)
  end.
Proof.
  induction rest as [|z rest IH]; intros prev off calls dur. { intros []. }
  cbn [update_rest map In].
  destruct (Z.eqb_spec (acc_offset z) off).
  - exists [prev], z, rest. split; [reflexivity|]. split; [left; reflexivity|]. split; [assumption|]. cbn [app]. apply Permutation.perm_swap.
  - specialize (IH z off calls dur). destruct (update_rest z rest off calls dur).
    + destruct IH as (a & w & b & E & Hin & Ho & HP). exists (prev :: a), w, b. rewrite E. split; [reflexivity|]. split; [right; assumption|]. split; [assumption|]. cbn [app]. apply Permutation.perm_skip. auto.
    + intros [H|H]; auto.
Qed.
Lemma table_inv_perm : forall a b T, Permutation.Permutation a b -> table_inv a T -> table_inv b T.
Proof.
  intros a b T HP ((HN & HI & HV) & HO). repeat split.
  - eapply Permutation.Permutation_NoDup; [|eauto]. apply Permutation.Permutation_map. auto.
  - intros Hx. apply HI. eapply Permutation.Permutation_in; [|eauto]. apply Permutation.Permutation_map, Permutation.Permutation_sym. auto.
  - intros Hx. apply HI in Hx. eapply Permutation.Permutation_in; [|eauto]. apply Permutation.Permutation_map. auto.
  - apply HV. eapply Permutation.Permutation_in; [apply Permutation.Permutation_sym; eauto | auto].
  - apply HV. eapply Permutation.Permutation_in; [apply Permutation.Permutation_sym; eauto | auto].
  - apply HO. eapply Permutation.Permutation_in; [apply Permutation.Permutation_sym; eauto | auto].
  - apply HO. eapply Permutation.Permutation_in; [apply Permutation.Permutation_sym; eauto | auto].
  - apply HO. eapply Permutation.Permutation_in; [apply Permutation.Permutation_sym; eauto | auto].
  - apply HO. eapply Permutation.Permutation_in; [apply Permutation.Permutation_sym; eauto | auto].
  - apply HO. eapply Permutation.Permutation_in; [apply Permutation.Permutation_sym; eauto | auto].
  - apply HO. eapply Permutation.Permutation_in; [apply Permutation.Permutation_sym; eauto | auto].
  - apply HO. eapply Permutation.Permutation_in; [apply Permutation.Permutation_sym; eauto | auto].
Qed.
(** adding to an existing entry *)
Lemma table_inv_add : forall a z b T calls dur, table_inv (a ++ z :: b) T -> 0 <= calls -> nonneg T -> calls_of Z.eqb zid T (acc_offset z) + calls < 2 ^ 39 ->
  table_inv (a ++ acc_add z calls dur :: b) (T ++ [(acc_offset z, calls, dur)]).
Proof.
  intros a z b T calls dur ((HN & HI & HV) & HO) Hc HT Htot.
  assert (Hz : In z (a ++ z :: b)) by (apply in_elt). destruct (HV z Hz) as (Ec & Ed). pose proof (calls_le_total Z.eqb zid T (acc_offset z) HT) as Hb.
  destruct (acc_add_ok z calls dur (HO z Hz) Hc ltac:(lia)) as (K0 & K1 & K2 & K3).
  assert (Emap : map acc_offset (a ++ acc_add z calls dur :: b) = map acc_offset (a ++ z :: b)) by (rewrite !map_app; simpl; rewrite K1; auto).
  split; [split; [|split]|].
  - rewrite Emap. auto.
  - intros o. rewrite Emap, (map_app s_off), in_app_iff, HI. simpl. split; [tauto|]. intros [H | [H | []]]; auto. unfold s_off in H. simpl in H. subst o. apply HI. apply in_map. auto.
  - assert (Hself : forall w, In w (a ++ b) -> acc_offset w <> acc_offset z).
    { intros w Hw Heq. rewrite map_app in HN. simpl in HN. apply NoDup_remove_2 in HN. apply HN. rewrite <- Heq. rewrite <- map_app. apply in_map. auto. }
    intros w Hw. rewrite calls_app, time_app, calls_one, time_one.
    apply in_app_or in Hw. cbn [In] in Hw. destruct Hw as [Hw | [<- | Hw]].
    + destruct (Z.eqb_spec (acc_offset z) (acc_offset w)). { exfalso. apply (Hself w); [apply in_or_app; auto | auto]. } destruct (HV w) as (E1 & E2). { apply in_or_app; auto. } rewrite E1, E2. split; [lia|]. f_equal. lia.
    + rewrite K1, K2, K3, Z.eqb_refl. rewrite Ec, Ed. split; [lia|]. rewrite Zplus_mod_idemp_l. reflexivity.
    + destruct (Z.eqb_spec (acc_offset z) (acc_offset w)). { exfalso. apply (Hself w); [apply in_or_app; auto | auto]. } destruct (HV w) as (E1 & E2). { apply in_or_app; simpl; auto. } rewrite E1, E2. split; [lia | f_equal; lia].
  - intros w Hw. apply in_app_or in Hw. cbn [In] in Hw. destruct Hw as [Hw | [<- | Hw]]; auto; apply HO; apply in_or_app; simpl; auto.
Qed.
Lemma table_inv_new : forall zs T off calls dur, table_inv zs T -> ~ In off (map acc_offset zs) -> 0 < off < 2 ^ 25 -> 0 <= calls < 2 ^ 39 -> 0 <= dur < 2 ^ 64 ->
  table_inv (zs ++ [acc_set off calls dur]) (T ++ [(off, calls, dur)]).
Proof.
  intros zs T off calls dur ((HN & HI & HV) & HO) Hnin Ho Hc Hd. destruct (acc_set_ok off calls dur Ho Hc Hd) as (K0 & K1 & K2 & K3).
  assert (HnT : ~ In off (map s_off T)) by (rewrite <- HI; auto). destruct (not_in_zero T off HnT) as (Z1 & Z2).
  split; [split; [|split]|].
  - rewrite map_app. simpl. rewrite K1. apply Permutation.Permutation_NoDup with (l := off :: map acc_offset zs). { apply Permutation.Permutation_cons_append. } constructor; auto.
  - intros o. rewrite !map_app, !in_app_iff, HI. simpl. rewrite K1. unfold s_off at 2. simpl. tauto.
  - intros w Hw. rewrite calls_app, time_app, calls_one, time_one.
    apply in_app_or in Hw. destruct Hw as [Hw | [<- | []]].
    + destruct (Z.eqb_spec off (acc_offset w)). { exfalso. apply Hnin. subst off. apply in_map. auto. } destruct (HV w Hw) as (E1 & E2). rewrite E1, E2. split; [lia|]. f_equal. lia.
    + rewrite K1, K2, K3, Z.eqb_refl. rewrite Z1, Z2. split; [lia|]. rewrite Z.mod_small; lia.
  - intros w Hw. apply in_app_or in Hw. destruct Hw as [Hw | [<- | []]]; auto.
Qed.
Lemma update_ok : forall U zs T off calls dur, (length U <= kMaxZones)%nat -> (forall o, In o (map acc_offset zs) -> In o U) -> In off U ->
  table_inv zs T -> 0 < off < 2 ^ 25 -> 0 <= calls -> 0 <= dur < 2 ^ 64 -> nonneg T -> calls_of Z.eqb zid T off + calls < 2 ^ 39 ->
  exists zs', update_or_add zs off calls dur = Some zs' /\ table_inv zs' (T ++ [(off, calls, dur)]).
Proof.
  intros U zs T off calls dur HU Hsub HoU HI Ho Hc Hd HT Htot.
  assert (Hc2 : 0 <= calls < 2 ^ 39). { pose proof (calls_le_total Z.eqb zid T off HT). lia. }
  assert (Hroom : ~ In off (map acc_offset zs) -> (length zs < kMaxZones)%nat).
  { intros Hn. destruct HI as ((HN & _ & _) & _). assert (Hnd : NoDup (off :: map acc_offset zs)) by (constructor; auto). 
    assert (incl (off :: map acc_offset zs) U) by (intros x [<- | Hx]; auto). pose proof (NoDup_incl_length Hnd H) as Hl. simpl in Hl. rewrite map_length in Hl. lia. }
  destruct zs as [|z0 rest]. { eexists. split; [reflexivity|]. apply (table_inv_new [] T); auto. }
  unfold update_or_add. destruct (Z.eqb_spec (acc_offset z0) off) as [E|E].
  - eexists. split; [reflexivity|]. subst off. apply (table_inv_add [] z0 rest); auto.
  - pose proof (update_rest_spec rest z0 off calls dur) as Hs. destruct (update_rest z0 rest off calls dur) as [l|].
    + destruct Hs as (a & z & b & El & _ & Eo & HP). exists l. split; auto. subst off. rewrite El in HI. eapply table_inv_perm; [apply Permutation.Permutation_sym; eauto|]. apply table_inv_add; auto.
    + assert (Hn : ~ In off (map acc_offset (z0 :: rest))) by (simpl; tauto). specialize (Hroom Hn). destruct (Nat.ltb_spec (length (z0 :: rest)) kMaxZones); [|lia].
      eexists. split; [reflexivity|]. apply table_inv_new; auto.
Qed.

(** ** analysis of nested calls *)
Section CallInd.
Variable P : call -> Prop.
Hypothesis H : forall o t0 t1 cs, Forall P cs -> P (Call o t0 t1 cs).
Fixpoint call_ind' (c : call) : P c :=
  match c with Call o t0 t1 cs => H o t0 t1 cs ((fix go (l : list call) : Forall P l := match l with [] => Forall_nil P | x :: r => Forall_cons x (call_ind' x) (go r) end) cs) end.
End CallInd.

Lemma analyze_app : forall a b r, analyze r (a ++ b) = match analyze r a with Some r' => analyze r' b | None => None end.
Proof. induction a as [|p a IH]; intros b r; [reflexivity|]. cbn [app analyze]. destruct (analyze1 r p); auto. Qed.
Lemma duration_eq : forall o0 o1 t0 t1, 0 < o0 < 2 ^ 25 -> 0 < o1 < 2 ^ 25 -> Z.land (m64 (pk_time (pk_make o1 t1) - pk_time (pk_make o0 t0))) kTimestampMask = (t1 - t0) mod 2 ^ 39.
Proof.
  intros o0 o1 t0 t1 H0 H1. destruct (pk_facts o0 t0 H0) as (_ & ->). destruct (pk_facts o1 t1 H1) as (_ & ->). rewrite kmask, land_mask by lia. unfold m64.
  rewrite <- Znumtheory.Zmod_div_mod; [| lia | lia | exists (2 ^ 25); reflexivity]. rewrite <- Zminus_mod. auto.
Qed.
Lemma elapsed_range : forall c, 0 <= elapsed c < 2 ^ 39.
Proof. intros [o t0 t1 cs]. apply Z.mod_pos_bound. lia. Qed.
Lemma inside_nonneg : forall co cs, 0 <= co -> 0 <= inside co cs.
Proof. intros co cs Hco. unfold inside. apply sumZ_nonneg. intros x Hx. apply in_map_iff in Hx as (c & <- & _). pose proof (elapsed_range c). lia. Qed.
Lemma self_range : forall so co c, 0 <= so -> 0 <= co -> 0 <= self_time so co c < 2 ^ 64.
Proof. intros so co [o t0 t1 cs] Hs Hc. unfold self_time. pose proof (elapsed_range (Call o t0 t1 cs)). pose proof (inside_nonneg co cs Hc). assert (2 ^ 39 < 2 ^ 64) by reflexivity. lia. Qed.
Lemma samples_nonneg : forall so co c, nonneg (samples so co c).
Proof.
  intros so co c. induction c as [o t0 t1 cs IH] using call_ind'. cbn [samples]. intros s Hs. apply in_app_or in Hs as [Hs | [<- | []]].
  - apply in_flat_map in Hs as (c & Hc & Hs). rewrite Forall_forall in IH. apply (IH c Hc). auto.
  - cbn [fst snd]. lia.
Qed.
Lemma nonneg_app : forall a b, nonneg a -> nonneg b -> nonneg (a ++ b).
Proof. intros a b Ha Hb s Hs. apply in_app_or in Hs as [Hs|Hs]; auto. Qed.
Lemma nonneg_flat : forall so co cs, nonneg (flat_map (samples so co) cs).
Proof. intros so co cs s Hs. apply in_flat_map in Hs as (c & _ & Hs). eapply samples_nonneg; eauto. Qed.
Lemma total_nonneg : forall T, nonneg T -> 0 <= total_calls T.
Proof. intros T HT. unfold total_calls. apply sumZ_nonneg. intros x Hx. apply in_map_iff in Hx as (s & <- & Hs). auto. Qed.

Definition bump (st : list (Z * Z)) (x : Z) : list (Z * Z) := match st with [] => [] | (q, ct) :: st2 => (q, m64 (ct + x)) :: st2 end.

Section Analyze.
Context (U : list Z) (so co : Z) (HU : (length U <= kMaxZones)%nat) (Hso : 0 <= so) (Hco : 0 <= co).
Definition goal_call (c : call) : Prop := forall st zs T, call_ok so co c -> (length st + depth c <= kMaxDepth)%nat -> table_inv zs T ->
  (forall o, In o (map s_off (T ++ samples so co c)) -> In o U) -> nonneg T -> total_calls T + total_calls (samples so co c) < 2 ^ 39 ->
  exists zs', analyze (Results st zs so co) (map event_packet (events c)) = Some (Results (bump st (elapsed c + co)) zs' so co) /\ table_inv zs' (T ++ samples so co c).

Lemma analyze_children : forall cs, Forall goal_call cs -> forall np x st zs T, fold_right (fun c P => call_ok so co c /\ P) True cs ->
  (S (length st) + fold_right (fun c m => Nat.max (depth c) m) 0%nat cs <= kMaxDepth)%nat -> table_inv zs T ->
  (forall o, In o (map s_off (T ++ flat_map (samples so co) cs)) -> In o U) -> nonneg T -> total_calls T + total_calls (flat_map (samples so co) cs) < 2 ^ 39 ->
  exists zs', analyze (Results ((np, m64 x) :: st) zs so co) (map event_packet (flat_map events cs)) = Some (Results ((np, m64 (x + inside co cs)) :: st) zs' so co) /\ table_inv zs' (T ++ flat_map (samples so co) cs).
Proof.
  induction cs as [|c cs IH]; intros HF np x st zs T Hok Hd HT HI HN Htot.
  { exists zs. cbn [flat_map map analyze]. unfold inside. cbn [map sumZ]. rewrite Z.add_0_r, app_nil_r. auto. }
  inversion HF as [|? ? Hc HF']; subst. cbn [fold_right] in Hok, Hd. destruct Hok as (Hok & Hoks). cbn [flat_map] in *. rewrite total_app in Htot.
  pose proof (total_nonneg _ (samples_nonneg so co c)). pose proof (total_nonneg _ (nonneg_flat so co cs)).
  destruct (Hc ((np, m64 x) :: st) zs T Hok) as (zs1 & E1 & T1); auto; [cbn [length]; lia | intros o Ho; apply HI; rewrite !map_app, !in_app_iff in *; tauto | lia |].
  rewrite map_app, analyze_app, E1. cbn [bump].
  assert (Em : m64 (m64 x + (elapsed c + co)) = m64 (x + (elapsed c + co))) by (unfold m64; apply Zplus_mod_idemp_l). rewrite Em.
  destruct (IH HF' np (x + (elapsed c + co)) st zs1 (T ++ samples so co c) Hoks) as (zs2 & E2 & T2); auto; [lia | intros o Ho; apply HI; rewrite <- app_assoc in Ho; auto | apply nonneg_app; auto; apply samples_nonneg | rewrite total_app; lia |].
  exists zs2. rewrite E2. split; [|rewrite <- app_assoc in T2; auto]. do 4 f_equal. unfold inside. cbn [map sumZ]. f_equal. lia.
Qed.

Lemma analyze_call : forall c, goal_call c.
Proof.
  induction c as [o t0 t1 cs IH] using call_ind'. intros st zs T Hok Hd HT HI HN Htot. cbn [call_ok] in Hok. destruct Hok as (Ho & Hob & Ht0 & Ht1 & Hin & Hoks).
  cbn [depth] in Hd. cbn [samples] in *. rewrite total_app in Htot.
  assert (Hb25 : 0 < kOffsetBias < 2 ^ 25) by (split; reflexivity).
  cbn [events map]. cbn [analyze]. unfold analyze1 at 1. cbn [event_packet]. destruct (pk_facts o t0 Ho) as (Eo & Et). rewrite Eo.
  change kOffsetBias with (2 ^ 24) at 1. destruct (Z.eqb_spec o (2 ^ 24)); [contradiction|]. cbn [negb stack zones self_overhead child_overhead].
  destruct (Nat.ltb_spec (length st) kMaxDepth); [|lia]. rewrite map_app, analyze_app.
  assert (Hone : total_calls [(o, 1, self_time so co (Call o t0 t1 cs))] = 1) by reflexivity.
  pose proof (total_nonneg _ (nonneg_flat so co cs)) as Hfn.
  destruct (analyze_children cs IH (pk_make o t0) 0 st zs T Hoks) as (zs1 & E1 & T1); auto; [lia | intros q Hq; apply HI; rewrite !map_app, !in_app_iff in *; tauto | lia |].
  change (m64 0) with 0 in E1. rewrite E1. cbn [map analyze]. unfold analyze1. cbn [event_packet stack zones self_overhead child_overhead].
  destruct (pk_facts kOffsetBias t1 Hb25) as (Eb & _). rewrite Eb, Z.eqb_refl. cbn [negb]. rewrite Eo. rewrite duration_eq by auto. rewrite Z.add_0_l.
  pose proof (inside_nonneg co cs Hco) as Hins.
  rewrite (m64_small (inside co cs)) by lia. rewrite (m64_small (so + co + inside co cs)) by lia.
  assert (Es : clamped_subtract ((t1 - t0) mod 2 ^ 39) (so + co + inside co cs) = self_time so co (Call o t0 t1 cs)).
  { unfold clamped_subtract, self_time. cbn [elapsed]. pose proof (Z.mod_pos_bound (t1 - t0) (2 ^ 39) ltac:(lia)). assert (2 ^ 39 < 2 ^ 64) by reflexivity.
    destruct (Z.ltb_spec ((t1 - t0) mod 2 ^ 39) (so + co + inside co cs)); [lia|]. rewrite m64_small by lia. lia. }
  rewrite Es. destruct (update_ok U zs1 (T ++ flat_map (samples so co) cs) o 1 (self_time so co (Call o t0 t1 cs))) as (zs2 & E2 & T2); auto.
  - destruct T1 as ((_ & H1 & _) & _). intros q Hq. apply HI. apply H1 in Hq. rewrite !map_app, !in_app_iff in *. tauto.
  - apply HI. rewrite !map_app, !in_app_iff. right. right. left. reflexivity.
  - lia.
  - apply self_range; auto.
  - apply nonneg_app; auto. apply nonneg_flat.
  - pose proof (calls_le_total Z.eqb zid (T ++ flat_map (samples so co) cs) o (nonneg_app _ _ HN (nonneg_flat so co cs))) as Hct. rewrite total_app in Hct. lia.
  - rewrite E2. exists zs2. split; [|rewrite <- app_assoc in T2; auto]. cbn [elapsed bump]. destruct st as [|[q ct] st2]; auto.
Qed.

(** a sequence of completed outermost zones *)
Lemma analyze_forest : forall cs zs T, Forall (call_ok so co) cs -> (forall c, In c cs -> (depth c <= kMaxDepth)%nat) -> table_inv zs T ->
  (forall o, In o (map s_off (T ++ flat_map (samples so co) cs)) -> In o U) -> nonneg T -> total_calls T + total_calls (flat_map (samples so co) cs) < 2 ^ 39 ->
  exists zs', analyze (Results [] zs so co) (map event_packet (flat_map events cs)) = Some (Results [] zs' so co) /\ table_inv zs' (T ++ flat_map (samples so co) cs).
Proof.
  induction cs as [|c cs IH]; intros zs T HF Hd HT HI HN Htot. { exists zs. cbn [flat_map map analyze]. rewrite app_nil_r. auto. }
  inversion HF as [|? ? Hc HF']; subst. cbn [flat_map] in *. rewrite total_app in Htot.
  pose proof (total_nonneg _ (samples_nonneg so co c)). pose proof (total_nonneg _ (nonneg_flat so co cs)).
  destruct (analyze_call c [] zs T Hc) as (zs1 & E1 & T1); auto; [cbn [length]; pose proof (Hd c (or_introl eq_refl)); lia | intros o Ho; apply HI; rewrite !map_app, !in_app_iff in *; tauto | lia |].
  rewrite map_app, analyze_app, E1. cbn [bump].
  destruct (IH zs1 (T ++ samples so co c) HF') as (zs2 & E2 & T2); auto; [intros; apply Hd; right; auto | intros o Ho; apply HI; rewrite <- app_assoc in Ho; auto | apply nonneg_app; auto; apply samples_nonneg | rewrite total_app; lia |].
  exists zs2. rewrite E2. split; auto. rewrite <- app_assoc in T2. auto.
Qed.
End Analyze.

(** ** buffering loses nothing *)
Section Buffer.
Context (cap maxp : nat) (Hcap : (1 <= cap)%nat) (Hmax : (cap <= maxp)%nat).
Definition pending (r0 : results) (all : list Z) (t : thread) : Prop := (length (buffer t) <= cap)%nat /\ (length (packets t) <= maxp)%nat /\
  forall more, match analyze (res t) (packets t ++ buffer t ++ more) with Some r => analyze r0 (all ++ more) = Some r | None => analyze r0 (all ++ more) = None end.
Lemma to_storage_ok : forall t r, (length (buffer t) <= cap)%nat -> (length (packets t) <= maxp)%nat -> analyze (res t) (packets t ++ buffer t) = Some r ->
  exists t', to_storage maxp t = Some t' /\ buffer t' = buffer t /\ (length (packets t') <= maxp)%nat /\ forall more, analyze (res t') (packets t' ++ more) = analyze (res t) (packets t ++ buffer t ++ more).
Proof.
  intros t r Hb Hp Ha. unfold to_storage. destruct (Nat.ltb_spec maxp (length (packets t) + length (buffer t))).
  - rewrite analyze_app in Ha. destruct (analyze (res t) (packets t)) as [r1|] eqn:E; [|discriminate]. cbn [packets buffer res length app].
    destruct (Nat.leb_spec (0 + length (buffer t)) maxp); [|lia]. eexists. split; [reflexivity|]. cbn [packets buffer res]. split; auto. split; [lia|]. intros more. rewrite analyze_app with (a := packets t), E. auto.
  - destruct (Nat.leb_spec (length (packets t) + length (buffer t)) maxp); [|lia]. eexists. split; [reflexivity|]. cbn [packets buffer res]. split; auto. split; [rewrite app_length; lia|]. intros more. rewrite <- app_assoc. auto.
Qed.
Lemma analyze_prefix : forall a b r0 r, analyze r0 (a ++ b) = Some r -> exists r1, analyze r0 a = Some r1.
Proof. intros a b r0 r H. rewrite analyze_app in H. destruct (analyze r0 a); [eauto | discriminate]. Qed.
Lemma run_ok : forall es t r, (length (buffer t) <= cap)%nat -> (length (packets t) <= maxp)%nat -> analyze (res t) (packets t ++ buffer t ++ map event_packet es) = Some r ->
  exists t', run_events cap maxp t es = Some t' /\ (length (buffer t') <= cap)%nat /\ (length (packets t') <= maxp)%nat /\ analyze (res t') (packets t' ++ buffer t') = Some r.
Proof.
  induction es as [|e es IH]; intros t r Hb Hp Ha. { exists t. cbn [run_events map] in *. rewrite app_nil_r in Ha. auto. }
  cbn [run_events map] in *. unfold write.
  assert (Hw : exists t1, (if (length (buffer t) =? cap)%nat then match to_storage maxp t with Some t' => Some (Thread [] (packets t') (res t')) | None => None end else Some t) = Some t1 /\
     (length (buffer t1) < cap)%nat /\ (length (packets t1) <= maxp)%nat /\ forall more, analyze (res t1) (packets t1 ++ buffer t1 ++ more) = analyze (res t) (packets t ++ buffer t ++ more)).
  { destruct (Nat.eqb_spec (length (buffer t)) cap).
    - rewrite app_assoc in Ha. destruct (analyze_prefix _ _ _ _ Ha) as (r1 & E1). destruct (to_storage_ok t r1 Hb Hp E1) as (t' & E & _ & Hp' & Hm). rewrite E. eexists. split; [reflexivity|]. cbn [buffer packets res length app]. split; [lia|]. split; auto.
    - exists t. split; auto. split; [lia|]. split; auto. }
  destruct Hw as (t1 & -> & Hb1 & Hp1 & Hm). destruct (Nat.ltb_spec (length (buffer t1)) cap); [|lia].
  apply IH; cbn [buffer packets res]; auto. { rewrite app_length. cbn [length]. lia. }
  rewrite <- Ha, <- Hm. f_equal. rewrite <- !app_assoc. reflexivity.
Qed.
Lemma remaining_ok : forall t r, (length (buffer t) <= cap)%nat -> (length (packets t) <= maxp)%nat -> analyze (res t) (packets t ++ buffer t) = Some r ->
  exists t', analyze_remaining maxp t = Some t' /\ res t' = r.
Proof.
  intros t r Hb Hp Ha. destruct (to_storage_ok t r Hb Hp Ha) as (t' & E & _ & _ & Hm). unfold analyze_remaining. rewrite E.
  specialize (Hm []). rewrite !app_nil_r in Hm. rewrite Hm, Ha. eexists. split; [reflexivity|]. reflexivity.
Qed.
Lemma thread_ok : forall so co es r, analyze (Results [] [] so co) (map event_packet es) = Some r ->
  exists t t', run_events cap maxp (new_thread so co) es = Some t /\ analyze_remaining maxp t = Some t' /\ res t' = r.
Proof.
  intros so co es r H. destruct (run_ok es (new_thread so co) r) as (t & E & Hb & Hp & Ha); cbn [new_thread buffer packets length]; auto; try lia.
  destruct (remaining_ok t r Hb Hp Ha) as (t' & E2 & Er). eauto.
Qed.
End Buffer.
Lemma table_inv_nil : table_inv [] [].
Proof. split; [split; [constructor | split; [intros o; reflexivity | intros z []]] | intros z []]. Qed.
