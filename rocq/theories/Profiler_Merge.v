From Coq Require Import ZArith List Bool Lia Permutation.
From Verif Require Import Profiler_Model Profiler_Spec Profiler_Proofs.
Import ListNotations.
Open Scope Z_scope.
Arguments Z.pow : simpl never.

Definition smp (z : acc) : Z * Z * Z := (acc_offset z, acc_calls z, acc_duration z).
Lemma smp_off : forall zs, map s_off (map smp zs) = map acc_offset zs.
Proof. intros. rewrite map_map. apply map_ext. reflexivity. Qed.
Lemma smp_nonneg : forall zs, (forall z, In z zs -> acc_ok z) -> nonneg (map smp zs).
Proof. intros zs H s Hs. apply in_map_iff in Hs as (z & <- & Hz). destruct (H z Hz) as (_ & Hc & _). cbn [smp fst snd]. lia. Qed.
Lemma calls_cons : forall {K} eqb (key : Z -> K) s T k, calls_of eqb key (s :: T) k = (if eqb (key (s_off s)) k then snd (fst s) else 0) + calls_of eqb key T k.
Proof. reflexivity. Qed.
Lemma time_cons : forall {K} eqb (key : Z -> K) s T k, time_of eqb key (s :: T) k = (if eqb (key (s_off s)) k then snd s else 0) + time_of eqb key T k.
Proof. reflexivity. Qed.

(** regrouping: summing the totals per offset over distinct offsets gives the totals per name *)
Lemma one_hit : forall (f : Z -> Z) L o, NoDup L -> In o L -> sumZ (map (fun q => if o =? q then f q else 0) L) = f o.
Proof.
  intros f. induction L as [|a L IH]; intros o HN Hin; [destruct Hin|]. inversion HN as [|? ? Ha HL]; subst. cbn [map sumZ].
  assert (Hz : forall M, ~ In o M -> sumZ (map (fun q => if o =? q then f q else 0) M) = 0).
  { clear. induction M as [|b M IH]; intros H; [reflexivity|]. cbn [map sumZ]. destruct (Z.eqb_spec o b). { exfalso. apply H. left; auto. } rewrite IH; auto. intros Hi. apply H. right; auto. }
  destruct (Z.eqb_spec o a).
  - subst. rewrite Hz by auto. lia.
  - destruct Hin; [congruence|]. rewrite IH by auto. lia.
Qed.
Lemma sumZ_ext_add : forall (f g : Z -> Z) L, sumZ (map (fun q => f q + g q) L) = sumZ (map f L) + sumZ (map g L).
Proof. induction L; cbn [map sumZ]; lia. Qed.
Lemma regroup_calls : forall (name : Z -> nat) n L T, NoDup L -> (forall o, In o (map s_off T) -> In o L) ->
  sumZ (map (fun o => if Nat.eqb (name o) n then calls_of Z.eqb zid T o else 0) L) = calls_of Nat.eqb name T n.
Proof.
  intros name n L T HL. induction T as [|s T IH]; intros Hc.
  { unfold calls_of. cbn [map sumZ]. induction L as [|a L IH]; cbn [map sumZ]; auto. inversion HL; subst. rewrite IH; auto; [|intros o []]. destruct (Nat.eqb (name a) n); auto. }
  rewrite calls_cons, <- IH by (intros o Ho; apply Hc; right; auto).
  rewrite <- (one_hit (fun o => if Nat.eqb (name o) n then snd (fst s) else 0) L (s_off s)) by (auto; apply Hc; left; auto).
  rewrite <- sumZ_ext_add. f_equal. apply map_ext. intros o. rewrite calls_cons. unfold zid at 1. destruct (Nat.eqb (name o) n); destruct (s_off s =? o); lia.
Qed.
Lemma regroup_time : forall (name : Z -> nat) n L T, NoDup L -> (forall o, In o (map s_off T) -> In o L) ->
  sumZ (map (fun o => if Nat.eqb (name o) n then time_of Z.eqb zid T o else 0) L) = time_of Nat.eqb name T n.
Proof.
  intros name n L T HL. induction T as [|s T IH]; intros Hc.
  { unfold time_of. cbn [map sumZ]. induction L as [|a L IH]; cbn [map sumZ]; auto. inversion HL; subst. rewrite IH; auto; [|intros o []]. destruct (Nat.eqb (name a) n); auto. }
  rewrite time_cons, <- IH by (intros o Ho; apply Hc; right; auto).
  rewrite <- (one_hit (fun o => if Nat.eqb (name o) n then snd s else 0) L (s_off s)) by (auto; apply Hc; left; auto).
  rewrite <- sumZ_ext_add. f_equal. apply map_ext. intros o. rewrite time_cons. unfold zid at 1. destruct (Nat.eqb (name o) n); destruct (s_off s =? o); lia.
Qed.
Lemma sumZ_mod : forall {X} (f g : X -> Z) M L, 0 < M -> (forall x, In x L -> f x mod M = g x mod M) -> sumZ (map f L) mod M = sumZ (map g L) mod M.
Proof.
  intros X f g M L HM. induction L as [|x L IH]; intros H; [reflexivity|]. cbn [map sumZ]. rewrite Zplus_mod, (Zplus_mod (g x)). rewrite H by (left; auto). rewrite IH; auto. intros y Hy. apply H. right; auto.
Qed.
(** totals of a table by name *)
Lemma table_names : forall (name : Z -> nat) zs T n, table_inv zs T ->
  calls_of Nat.eqb name (map smp zs) n = calls_of Nat.eqb name T n /\ time_of Nat.eqb name (map smp zs) n mod 2 ^ 64 = time_of Nat.eqb name T n mod 2 ^ 64.
Proof.
  intros name zs T n ((HN & HI & HV) & _). rewrite <- (regroup_calls name n (map acc_offset zs) T) by (auto; intros; apply HI; auto). rewrite <- (regroup_time name n (map acc_offset zs) T) by (auto; intros; apply HI; auto).
  unfold calls_of at 1, time_of at 1. rewrite !map_map. split.
  - f_equal. apply map_ext_in. intros z Hz. change (s_off (smp z)) with (acc_offset z). destruct (HV z Hz) as (E & _). cbn [smp fst snd]. rewrite E. reflexivity.
  - apply sumZ_mod; [reflexivity|]. intros z Hz. change (s_off (smp z)) with (acc_offset z). destruct (HV z Hz) as (_ & E). cbn [smp fst snd]. rewrite E. destruct (Nat.eqb _ _); auto. apply Z.mod_mod. lia.
Qed.

(** ** Assimilate *)
Lemma smp_calls_in : forall zs z, NoDup (map acc_offset zs) -> In z zs -> calls_of Z.eqb zid (map smp zs) (acc_offset z) = acc_calls z /\ time_of Z.eqb zid (map smp zs) (acc_offset z) = acc_duration z.
Proof.
  induction zs as [|a zs IH]; intros z HN Hin; [destruct Hin|]. cbn [map] in *. inversion HN as [|? ? Ha HN']; subst. rewrite calls_cons, time_cons. change (s_off (smp a)) with (acc_offset a). unfold zid at 1 3. cbn [smp fst snd].
  destruct Hin as [-> | Hin].
  - rewrite Z.eqb_refl. destruct (not_in_zero (map smp zs) (acc_offset z)) as (E1 & E2). { rewrite smp_off. auto. } rewrite E1, E2. lia.
  - destruct (Z.eqb_spec (acc_offset a) (acc_offset z)) as [E|E]. { exfalso. apply Ha. rewrite E. apply in_map. auto. } destruct (IH z HN' Hin). lia.
Qed.
Lemma table_smp : forall zs S o, table_inv zs S -> calls_of Z.eqb zid (map smp zs) o = calls_of Z.eqb zid S o /\ time_of Z.eqb zid (map smp zs) o mod 2 ^ 64 = time_of Z.eqb zid S o mod 2 ^ 64.
Proof.
  intros zs S o ((HN & HI & HV) & _). destruct (in_dec Z.eq_dec o (map acc_offset zs)) as [Hin|Hn].
  - apply in_map_iff in Hin as (z & <- & Hz). destruct (smp_calls_in zs z HN Hz) as (-> & ->). destruct (HV z Hz) as (E1 & E2). rewrite E1, E2. rewrite Z.mod_mod by lia. auto.
  - destruct (not_in_zero S o) as (-> & ->); [rewrite <- HI; auto|]. destruct (not_in_zero (map smp zs) o) as (-> & ->); [rewrite smp_off; auto|]. auto.
Qed.
Lemma table_inv_equiv : forall zs T T', (forall o, In o (map s_off T) <-> In o (map s_off T')) -> (forall o, calls_of Z.eqb zid T o = calls_of Z.eqb zid T' o /\ time_of Z.eqb zid T o mod 2 ^ 64 = time_of Z.eqb zid T' o mod 2 ^ 64) -> table_inv zs T -> table_inv zs T'.
Proof.
  intros zs T T' H1 H2 ((HN & HI & HV) & HO). split; auto. split; auto. split. { intros o. rewrite HI. apply H1. }
  intros z Hz. destruct (HV z Hz) as (E1 & E2). destruct (H2 (acc_offset z)) as (E3 & E4). rewrite <- E3, <- E4. auto.
Qed.
Lemma assimilate_smp : forall U zs main T, (length U <= kMaxZones)%nat -> table_inv main T -> nonneg T -> (forall z, In z zs -> acc_ok z) -> (forall o, In o (map s_off (T ++ map smp zs)) -> In o U) ->
  (forall o, calls_of Z.eqb zid (T ++ map smp zs) o < 2 ^ 39) -> exists m, assimilate main zs = Some m /\ table_inv m (T ++ map smp zs).
Proof.
  intros U. induction zs as [|z zs IH]; intros main T HU HT HN HO HI HB. { exists main. cbn [map assimilate]. rewrite app_nil_r. auto. }
  cbn [assimilate map] in *. destruct (HO z (or_introl eq_refl)) as (Hz1 & Hz2 & _ & Hz3).
  assert (Hnz : nonneg (map smp zs)) by (apply smp_nonneg; intros; apply HO; right; auto).
  destruct (update_ok U main T (acc_offset z) (acc_calls z) (acc_duration z)) as (m1 & E1 & T1); auto.
  - destruct HT as ((_ & HI' & _) & _). intros o Ho. apply HI. rewrite map_app, in_app_iff. left. apply HI'. auto.
  - apply HI. rewrite map_app, in_app_iff. right. left. reflexivity.
  - lia.
  - specialize (HB (acc_offset z)). rewrite calls_app, calls_cons in HB. change (s_off (smp z)) with (acc_offset z) in HB. unfold zid at 2 in HB. rewrite Z.eqb_refl in HB. cbn [smp fst snd] in HB.
    pose proof (calls_le_total Z.eqb zid (map smp zs) (acc_offset z) Hnz). lia.
  - rewrite E1. destruct (IH m1 (T ++ [(acc_offset z, acc_calls z, acc_duration z)])) as (m & E & Tm); auto.
    + apply nonneg_app; auto. intros s [<- | []]. cbn [fst snd]. lia.
    + intros w Hw. apply HO. right; auto.
    + intros o Ho. apply HI. rewrite <- app_assoc in Ho. auto.
    + intros o. specialize (HB o). rewrite <- app_assoc. auto.
    + exists m. split; auto. rewrite <- app_assoc in Tm. auto.
Qed.
Lemma assimilate_ok : forall U zs S main T, (length U <= kMaxZones)%nat -> table_inv main T -> nonneg T -> table_inv zs S -> nonneg S -> (forall o, In o (map s_off (T ++ S)) -> In o U) ->
  total_calls T + total_calls S < 2 ^ 39 -> exists m, assimilate main zs = Some m /\ table_inv m (T ++ S).
Proof.
  intros U zs S main T HU HT HN HS HNS HI HB. pose proof HS as ((_ & HIS & _) & HO).
  destruct (assimilate_smp U zs main T) as (m & E & Tm); auto.
  - intros o Ho. apply HI. rewrite map_app, in_app_iff in *. destruct Ho as [Ho|Ho]; auto. right. rewrite smp_off in Ho. apply HIS. auto.
  - intros o. rewrite calls_app. destruct (table_smp zs S o HS) as (-> & _). pose proof (calls_le_total Z.eqb zid T o HN). pose proof (calls_le_total Z.eqb zid S o HNS). lia.
  - exists m. split; auto. eapply table_inv_equiv; [| |exact Tm].
    + intros o. rewrite !map_app, !in_app_iff, smp_off, HIS. tauto.
    + intros o. rewrite !calls_app, !time_app. destruct (table_smp zs S o HS) as (-> & E2). split; auto. rewrite Zplus_mod, E2, <- Zplus_mod. auto.
Qed.

(** ** MergeDuplicates *)
Section Merge.
Context (name : Z -> nat).
Definition nm (z : acc) : nat := name (acc_offset z).
Definition NC (zs : list acc) (n : nat) : Z := calls_of Nat.eqb name (map smp zs) n.
Definition ND (zs : list acc) (n : nat) : Z := time_of Nat.eqb name (map smp zs) n.
Lemma NC_cons : forall z zs n, NC (z :: zs) n = (if Nat.eqb (nm z) n then acc_calls z else 0) + NC zs n.
Proof. reflexivity. Qed.
Lemma ND_cons : forall z zs n, ND (z :: zs) n = (if Nat.eqb (nm z) n then acc_duration z else 0) + ND zs n.
Proof. reflexivity. Qed.
Lemma NC_app : forall a b n, NC (a ++ b) n = NC a n + NC b n.
Proof. intros. unfold NC. rewrite map_app. apply calls_app. Qed.
Lemma ND_app : forall a b n, ND (a ++ b) n = ND a n + ND b n.
Proof. intros. unfold ND. rewrite map_app. apply time_app. Qed.
Lemma N_perm : forall a b n, Permutation a b -> NC a n = NC b n /\ ND a n = ND b n.
Proof. intros a b n H. induction H; rewrite ?NC_cons, ?ND_cons; lia || auto. Qed.
Lemma NC_nonneg : forall zs n, (forall z, In z zs -> acc_ok z) -> 0 <= NC zs n.
Proof. intros. apply calls_le_total. apply smp_nonneg. auto. Qed.
Definition ok_all (zs : list acc) : Prop := forall z, In z zs -> acc_ok z.

Lemma rotate : forall (z : acc) l, l <> [] -> Permutation (last l z :: removelast l) l.
Proof. intros z l H. rewrite (app_removelast_last z H) at 3. apply Permutation_cons_append. Qed.

Lemma merge_inner_ok : forall fuel nc cur kept todo nc' cur' rest', (length todo <= fuel)%nat -> acc_ok cur -> ok_all (kept ++ todo) -> (forall z, In z kept -> nm z <> nm cur) -> 0 <= nc -> nc + NC todo (nm cur) < 2 ^ 39 ->
  merge_inner name fuel nc cur kept todo = (nc', cur', rest') ->
  nc' = nc + NC todo (nm cur) /\ acc_duration cur' mod 2 ^ 64 = (acc_duration cur + ND todo (nm cur)) mod 2 ^ 64 /\ acc_ok cur' /\ (length rest' <= length (kept ++ todo))%nat /\ incl rest' (kept ++ todo) /\ (forall n, NC rest' n <= NC (kept ++ todo) n) /\
  (forall n, n <> nm cur -> NC rest' n = NC (kept ++ todo) n /\ ND rest' n = ND (kept ++ todo) n /\ (In n (map nm (kept ++ todo)) -> In n (map nm rest'))).
Proof.
  induction fuel; intros nc cur kept todo nc' cur' rest' Hf Hcur Hok Hk Hnc Hb E.
  { destruct todo; [|cbn [length] in Hf; lia]. cbn [merge_inner] in E. injection E as <- <- <-. change (NC [] (nm cur)) with 0. change (ND [] (nm cur)) with 0. rewrite !Z.add_0_r. split; [auto|]. split; [auto|]. split; [auto|]. split; [lia|]. split; [apply incl_refl|]. split; [intros; lia | auto]. }
  destruct todo as [|z todo'].
  { cbn [merge_inner] in E. injection E as <- <- <-. change (NC [] (nm cur)) with 0. change (ND [] (nm cur)) with 0. rewrite !Z.add_0_r. split; [auto|]. split; [auto|]. split; [auto|]. split; [lia|]. split; [apply incl_refl|]. split; [intros; lia | auto]. }
  cbn [merge_inner length] in *. fold (nm cur) in E. fold (nm z) in E. rewrite NC_cons in Hb. rewrite NC_cons, ND_cons.
  assert (Hz : acc_ok z) by (apply Hok; apply in_or_app; right; left; auto).
  assert (Hok' : ok_all todo') by (intros w Hw; apply Hok; apply in_or_app; right; right; auto).
  destruct (Nat.eqb_spec (nm cur) (nm z)) as [En|En].
  - rewrite <- En in *. rewrite Nat.eqb_refl in *.
    destruct (acc_add_ok cur 0 (acc_duration z) Hcur ltac:(lia)) as (K0 & K1 & K2 & K3). { destruct Hcur as (_ & Hc & _). lia. }
    assert (Hnm : nm (acc_add cur 0 (acc_duration z)) = nm cur) by (unfold nm; rewrite K1; auto).
    pose proof (NC_nonneg todo' (nm cur) Hok') as Hnn. destruct Hz as (_ & Hzc & _ & Hzd).
    assert (Em : m64 (nc + acc_calls z) = nc + acc_calls z) by (apply m64_small; lia). rewrite Em in E.
    destruct todo' as [|y todo''].
    + injection E as <- <- <-. change (NC [] (nm cur)) with 0. change (ND [] (nm cur)) with 0. rewrite K3. split; [lia|]. split. { rewrite Z.mod_mod by lia. f_equal. lia. } split; [auto|]. split; [lia|]. split; [apply incl_refl|]. split; [intros; lia | auto].
    + set (td := last (y :: todo'') z :: removelast (y :: todo'')) in *. assert (HP : Permutation td (y :: todo'')) by (apply rotate; discriminate).
      destruct (N_perm td (y :: todo'') (nm cur) HP) as (P1 & P2).
      assert (Hl : length td = length (y :: todo'')) by (apply Permutation_length; auto).
      apply IHfuel in E; auto.
      * rewrite Hnm, P1, P2, K3 in E. destruct E as (E1 & E2 & E3 & E4 & E5 & E7 & E6). rewrite Zplus_mod_idemp_l in E2.
        split; [lia|]. split. { rewrite E2. f_equal. lia. } split; auto. split. { rewrite app_length in *. cbn [length] in *. lia. } split.
        { intros w Hw. apply E5 in Hw. apply in_app_or in Hw as [Hw|Hw]; apply in_or_app; auto. right. right. eapply Permutation_in; eauto. }
        split. { intros n. specialize (E7 n). rewrite NC_app in *. rewrite NC_cons. destruct (N_perm td (y :: todo'') n HP) as (Eq & _). rewrite Eq in E7. destruct (Nat.eqb (nm z) n); lia. }
        intros n Hn. destruct (E6 n Hn) as (F1 & F2 & F3). rewrite F1, F2, !NC_app, !ND_app, NC_cons, ND_cons. destruct (N_perm td (y :: todo'') n HP) as (-> & ->). rewrite <- En. destruct (Nat.eqb_spec (nm cur) n); [congruence|].
        split; [lia|]. split; [lia|]. intros Hin. apply F3. rewrite !map_app, !in_app_iff in *. destruct Hin as [Hin|Hin]; auto. cbn [map] in Hin. destruct Hin as [Hin|Hin]; [congruence|]. right. eapply Permutation_in; [apply Permutation_sym, Permutation_map; eauto|]. auto.
      * lia.
      * intros w Hw. apply in_app_or in Hw as [Hw|Hw]. { apply Hok. apply in_or_app; auto. } apply Hok'. eapply Permutation_in; eauto.
      * intros w Hw. rewrite Hnm. auto.
      * lia.
      * rewrite Hnm, P1. lia.
  - destruct (Nat.eqb_spec (nm z) (nm cur)); [congruence|].
    assert (Eapp : (kept ++ [z]) ++ todo' = kept ++ z :: todo') by (rewrite <- app_assoc; reflexivity).
    apply IHfuel in E; auto.
    + rewrite Eapp in E. destruct E as (E1 & E2 & E3 & E4 & E5 & E7 & E6). split; [lia|]. split; [rewrite E2; f_equal; lia|]. auto.
    + lia.
    + rewrite Eapp. auto.
    + intros w Hw. apply in_app_or in Hw as [Hw | [<- | []]]; auto.
Qed.

Lemma merge_ok : forall fuel zs, (length zs <= fuel)%nat -> ok_all zs -> (forall n, NC zs n < 2 ^ 39) ->
  (forall n, In n (map nm zs) -> In (n, NC zs n, ND zs n mod 2 ^ 64) (map (line name) (merge_duplicates name fuel zs))) /\
  (forall n c d, In (n, c, d) (map (line name) (merge_duplicates name fuel zs)) -> In n (map nm zs) /\ c <= NC zs n).
Proof.
  induction fuel; intros zs Hf Hok HB. { destruct zs; [|cbn [length] in Hf; lia]. split; [intros n [] | intros n c d []]. }
  destruct zs as [|z rest]. { split; [intros n [] | intros n c d []]. }
  cbn [length merge_duplicates] in *. destruct (merge_inner name (length rest) (acc_calls z) z [] rest) as [[nc cur] rest'] eqn:E.
  assert (Hz : acc_ok z) by (apply Hok; left; auto). assert (Hokr : ok_all rest) by (intros w Hw; apply Hok; right; auto).
  pose proof (HB (nm z)) as HBz. rewrite NC_cons, Nat.eqb_refl in HBz. pose proof Hz as (Hz1 & Hz2 & _ & Hz4).
  apply merge_inner_ok in E; auto; try lia.
  cbn [app] in E. destruct E as (E1 & E2 & E3 & E4 & E5 & E7 & E6).
  destruct E3 as (_ & _ & _ & Hcd). fold (acc_duration cur) in Hcd. rewrite Z.mod_small in E2 by auto. pose proof (NC_nonneg rest (nm z) Hokr).
  destruct (acc_set_ok (acc_offset z) nc (acc_duration cur) Hz1 ltac:(lia) Hcd) as (K0 & K1 & K2 & K3).
  assert (Eline : line name (acc_set (acc_offset z) nc (acc_duration cur)) = (nm z, NC (z :: rest) (nm z), ND (z :: rest) (nm z) mod 2 ^ 64)).
  { unfold line. rewrite K1, K2, K3, NC_cons, ND_cons, Nat.eqb_refl, E1, E2. reflexivity. }
  assert (Hokr' : ok_all rest') by (intros w Hw; apply Hokr; apply E5; auto).
  assert (Hmono : forall n, NC rest n <= NC (z :: rest) n) by (intros n; rewrite NC_cons; destruct (Nat.eqb (nm z) n); lia).
  destruct (IHfuel rest') as (I1 & I2); auto; [lia | intros n; specialize (HB n); specialize (E7 n); specialize (Hmono n); lia |].
  cbn [map]. rewrite Eline. split.
  - intros n Hin. destruct (Nat.eq_dec n (nm z)) as [->|Hn]; [left; auto|]. destruct Hin as [Hin|Hin]; [congruence|]. destruct (E6 n Hn) as (F1 & F2 & F3). right. specialize (I1 n (F3 Hin)).
    rewrite NC_cons, ND_cons. destruct (Nat.eqb_spec (nm z) n); [congruence|]. rewrite !Z.add_0_l, <- F1, <- F2. auto.
  - intros n c d [Hin|Hin]. { injection Hin as <- <- <-. split; [left; auto | lia]. } destruct (I2 n c d Hin) as (J1 & J2). split. { right. apply in_map_iff in J1 as (w & <- & Hw). apply in_map. apply E5. auto. } specialize (E7 n). specialize (Hmono n). lia.
Qed.

(** distinct names: nothing is merged *)
Lemma merge_inner_distinct : forall fuel nc cur kept todo, (forall z, In z todo -> nm z <> nm cur) -> merge_inner name fuel nc cur kept todo = (nc, cur, kept ++ todo).
Proof.
  induction fuel; intros nc cur kept todo H; [reflexivity|]. destruct todo as [|z todo]; [reflexivity|]. cbn [merge_inner]. fold (nm cur) (nm z). destruct (Nat.eqb_spec (nm cur) (nm z)). { exfalso. apply (H z); [left; auto | auto]. }
  rewrite IHfuel by (intros w Hw; apply H; right; auto). rewrite <- app_assoc. reflexivity.
Qed.
Lemma merge_distinct : forall fuel zs, ok_all zs -> NoDup (map nm zs) -> map (line name) (merge_duplicates name fuel zs) = map (line name) zs.
Proof.
  induction fuel; intros zs Hok HN; [reflexivity|]. destruct zs as [|z rest]; [reflexivity|]. cbn [merge_duplicates map] in *. inversion HN as [|? ? Hz HN']; subst.
  rewrite merge_inner_distinct by (intros w Hw E; apply Hz; rewrite <- E; apply in_map; auto). cbn [app map]. rewrite IHfuel; auto; [|intros w Hw; apply Hok; right; auto].
  f_equal. destruct (Hok z (or_introl eq_refl)) as (Hz1 & Hz2 & _ & Hz4). destruct (acc_set_ok (acc_offset z) (acc_calls z) (acc_duration z) Hz1 Hz2 Hz4) as (K0 & K1 & K2 & K3). unfold line. rewrite K1, K2, K3. auto.
Qed.
End Merge.
