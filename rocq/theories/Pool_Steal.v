From Coq Require Import ZArith List Lia Bool Znumtheory.
From Verif Require Import Word Word_Proofs Arith_Model Pool_Model Pool_Spec Pool_Proofs.
Import ListNotations.
Local Open Scope Z_scope.

(* ------------------------ sums over workers ------------------------ *)
Fixpoint sumw (n : nat) (f : Z -> Z) : Z :=
  match n with O => 0 | S k => sumw k f + f (Z.of_nat k) end.

Lemma sumw_ext n f g : (forall w, 0 <= w < Z.of_nat n -> f w = g w) -> sumw n f = sumw n g.
Proof. induction n as [|n IH]; intros H; [reflexivity|]. cbn [sumw]. rewrite H, IH by (intros; try apply H; lia). reflexivity. Qed.
Lemma sumw_upd n f g w : 0 <= w < Z.of_nat n -> (forall x, x <> w -> g x = f x) -> sumw n g = sumw n f + g w - f w.
Proof.
  induction n as [|n IH]; intros Hw H; [lia|]. cbn [sumw].
  destruct (Z.eq_dec w (Z.of_nat n)) as [->|].
  - rewrite (sumw_ext n g f); [lia|]. intros; apply H; lia.
  - rewrite IH by (auto; lia). rewrite (H (Z.of_nat n)) by lia. lia.
Qed.
Lemma sumw_nonneg n f : (forall w, 0 <= w < Z.of_nat n -> 0 <= f w) -> 0 <= sumw n f.
Proof. induction n as [|n IH]; intros H; cbn; [lia|]. specialize (IH ltac:(intros; apply H; lia)). specialize (H (Z.of_nat n)). lia. Qed.
Lemma sumw_le n f g : (forall w, 0 <= w < Z.of_nat n -> f w <= g w) -> sumw n f <= sumw n g.
Proof. induction n as [|n IH]; intros H; cbn; [lia|]. specialize (IH ltac:(intros; apply H; lia)). specialize (H (Z.of_nat n)). lia. Qed.
Lemma sumw_ge_term n f w : (forall w, 0 <= w < Z.of_nat n -> 0 <= f w) -> 0 <= w < Z.of_nat n -> f w <= sumw n f.
Proof.
  induction n as [|n IH]; intros H Hw; [lia|]. cbn.
  pose proof (sumw_nonneg n f ltac:(intros; apply H; lia)).
  destruct (Z.eq_dec w (Z.of_nat n)) as [->|]; [lia|].
  specialize (IH ltac:(intros; apply H; lia) ltac:(lia)). specialize (H (Z.of_nat n)). lia.
Qed.
Lemma sumw_const n c : sumw n (fun _ => c) = Z.of_nat n * c.
Proof. induction n as [|n IH]; [reflexivity|]. cbn [sumw]. rewrite IH. lia. Qed.

(* ------------------------ the interleaving invariant ------------------- *)
Definition b2z (b : bool) : Z := if b then 1 else 0.
Fixpoint cnt (v : Z) (l : list Z) : Z := match l with [] => 0 | x :: l' => b2z (x =? v) + cnt v l' end.

(** visits of victim v still ahead of a worker *)
Definition ahead (p : pc) (v : Z) : Z :=
  match p with
  | PSingle => 0
  | PVictims vs => cnt v vs
  | PLoop u _ vs | PCall _ u _ vs => b2z (u =? v) + cnt v vs
  end.
(** reserved but not yet called *)
Definition pending (p : pc) (t : Z) : Z := match p with PCall t' _ _ _ => b2z (t' =? t) | _ => 0 end.

Lemma cnt_nonneg v l : 0 <= cnt v l.
Proof. induction l as [|x l IH]; cbn; [lia|]. unfold b2z. destruct (x =? v); lia. Qed.
Lemma ahead_nonneg p v : 0 <= ahead p v.
Proof. destruct p; cbn; try lia; unfold b2z; pose proof (cnt_nonneg v vs); try (destruct (v0 =? v)); lia. Qed.

Lemma cnt_in v l : 1 <= cnt v l -> In v l.
Proof. induction l as [|x l IH]; cbn; [lia|]. unfold b2z. destruct (Z.eqb_spec x v); [left; auto|right; apply IH; lia]. Qed.
Lemma cnt_pos v l : In v l -> 1 <= cnt v l.
Proof.
  induction l as [|x l IH]; cbn; [tauto|]. pose proof (cnt_nonneg v l). unfold b2z.
  intros [->|H1]; [rewrite Z.eqb_refl; lia|]. specialize (IH H1). destruct (x =? v); lia.
Qed.
Lemma cnt_nodup v l : NoDup l -> cnt v l <= 1.
Proof.
  induction l as [|x l IH]; intros ND; cbn; [lia|]. inversion ND as [|? ? Hn ND']; subst.
  specialize (IH ND'). unfold b2z. destruct (Z.eqb_spec x v) as [->|]; [|lia].
  destruct (Z_le_dec 1 (cnt v l)) as [H1|]; [|lia]. apply cnt_in in H1. contradiction.
Qed.

Lemma pending_nonneg p t : 0 <= pending p t.
Proof. destruct p as [| | |t' ? ? ?]; cbn [pending]; try lia. unfold b2z. destruct (t' =? t); lia. Qed.

(** all victims mentioned by a pc satisfy P, and loop ends agree with my_end *)
Definition pc_ok (nw : Z) (my_end : Z -> Z) (p : pc) : Prop :=
  match p with
  | PSingle => False
  | PVictims vs => Forall (fun v => 0 <= v < nw) vs
  | PLoop v e vs => 0 <= v < nw /\ e = my_end v /\ Forall (fun v => 0 <= v < nw) vs
  | PCall t v e vs => 0 <= v < nw /\ e = my_end v /\ Forall (fun v => 0 <= v < nw) vs
  end.

Definition covered (my_begin my_end c : Z -> Z) (t v : Z) : Z :=
  b2z ((my_begin v <=? t) && (t <? Z.min (c v) (my_end v))).

Definition calls_n (t : Z) (calls : list (Z * Z)) : Z := Z.of_nat (calls_for t calls).

(** Invariant for the stealing phase with ghost unwrapped counters [c]. *)
Record Inv (n : nat) (my_begin my_end : Z -> Z) (victims : Z -> list Z) (s : state) (c : Z -> Z) : Prop := {
  I_pc : forall w, 0 <= w < Z.of_nat n -> pc_ok (Z.of_nat n) my_end (st_pc s w);
  I_begin : forall v, 0 <= v < Z.of_nat n -> st_begin s v = wrap 64 (c v) /\ my_begin v <= c v;
  I_ahead : forall w v, 0 <= w < Z.of_nat n -> ahead (st_pc s w) v <= cnt v (victims w);
  I_bound : forall v, 0 <= v < Z.of_nat n ->
     c v + sumw n (fun w => ahead (st_pc s w) v) <= my_end v + sumw n (fun w => cnt v (victims w));
  I_done : forall w v, 0 <= w < Z.of_nat n -> 0 <= v < Z.of_nat n ->
     ahead (st_pc s w) v < cnt v (victims w) -> my_end v <= c v;
  I_calls : forall t, calls_n t (st_calls s) + sumw n (fun w => pending (st_pc s w) t)
     = sumw n (covered my_begin my_end c t);
  I_workers : workers_ok (Z.of_nat n) (st_calls s)
}.

Lemma fupd_eq {A} (f : Z -> A) k x : fupd f k x k = x.
Proof. unfold fupd. rewrite Z.eqb_refl. reflexivity. Qed.
Lemma fupd_ne {A} (f : Z -> A) k x i : i <> k -> fupd f k x i = f i.
Proof. intros H. unfold fupd. destruct (Z.eqb_spec i k); [contradiction|reflexivity]. Qed.

Lemma sum_fupd n (F : pc -> Z) pcs w p : 0 <= w < Z.of_nat n ->
  sumw n (fun x => F (fupd pcs w p x)) = sumw n (fun x => F (pcs x)) + F p - F (pcs w).
Proof.
  intros Hw. rewrite (sumw_upd n (fun x => F (pcs x)) (fun x => F (fupd pcs w p x)) w Hw).
  - rewrite fupd_eq. reflexivity.
  - intros x Hx. rewrite fupd_ne by auto. reflexivity.
Qed.

Section Steal.
Variable n : nat.
Variables my_begin my_end : Z -> Z.
Variable victims : Z -> list Z.
Let nw := Z.of_nat n.
Hypothesis Hle : forall v, 0 <= v < nw -> 0 <= my_begin v <= my_end v.
Hypothesis Hnd : forall w, 0 <= w < nw -> NoDup (victims w).
Hypothesis Hov : forall v, 0 <= v < nw -> my_end v + nw <= 2 ^ 64.

Lemma victims_sum v : sumw n (fun w => cnt v (victims w)) <= nw.
Proof.
  unfold nw. rewrite <- (Z.mul_1_r (Z.of_nat n)), <- sumw_const. apply sumw_le.
  intros w Hw. apply cnt_nodup, Hnd. exact Hw.
Qed.

Lemma covered_same c t v x : x <> v -> forall k, covered my_begin my_end (fupd c v k) t x = covered my_begin my_end c t x.
Proof. intros Hx k. unfold covered. rewrite fupd_ne by auto. reflexivity. Qed.

Definition next_c (s : state) (w : Z) (c : Z -> Z) : Z -> Z :=
  match st_pc s w with PLoop v _ _ => fupd c v (c v + 1) | _ => c end.

Lemma Inv_noov s c w v e vs : Inv n my_begin my_end victims s c -> 0 <= w < nw -> st_pc s w = PLoop v e vs ->
  0 <= v < nw /\ e = my_end v /\ c v + 1 <= 2 ^ 64 /\ st_begin s v = c v.
Proof.
  intros [Ipc Ib Ia Ibd Id Ic Iw] Hw Epc. pose proof (Ipc w Hw) as Pw. rewrite Epc in Pw. destruct Pw as (Hv & -> & Hvs).
  destruct (Ib v Hv) as [Eb Hb].
  assert (HA : 1 <= ahead (st_pc s w) v).
  { rewrite Epc. cbn. unfold b2z. rewrite Z.eqb_refl. pose proof (cnt_nonneg v vs). lia. }
  assert (Hc : c v + 1 <= 2 ^ 64).
  { specialize (Ibd v Hv). pose proof (victims_sum v). specialize (Hov v Hv). unfold nw in *.
    pose proof (sumw_ge_term n (fun w => ahead (st_pc s w) v) w ltac:(intros; apply ahead_nonneg) Hw). cbv beta in *. lia. }
  pose proof (Hle v Hv) as Hlev.
  repeat split; auto; try lia. rewrite Eb; apply wrap_small; lia.
Qed.

Lemma Inv_step tb te s c w s' : Inv n my_begin my_end victims s c -> 0 <= w < nw ->
  step tb te my_end w s = Some s' -> Inv n my_begin my_end victims s' (next_c s w c).
Proof.
  intros [Ipc Ib Ia Ibd Id Ic Iw] Hw Hs. unfold nw in *. unfold step in Hs. unfold next_c.
  pose proof (Ipc w Hw) as Pw.
  destruct (st_pc s w) as [|vs|v e vs|t v e vs] eqn:Epc; cbn [pc_ok] in Pw; [contradiction| | |].
  - (* PVictims *)
    destruct vs as [|v vs]; [discriminate|]. injection Hs as <-.
    inversion Pw as [|? ? Hv Hvs]; subst.
    assert (EA : forall u, ahead (PLoop v (my_end v) vs) u = ahead (st_pc s w) u) by (intros; rewrite Epc; reflexivity).
    constructor; cbn [st_begin st_pc st_calls].
    + intros x Hx. unfold fupd. destruct (Z.eqb_spec x w); [|auto]. cbn. auto.
    + exact Ib.
    + intros x u Hx. unfold fupd. destruct (Z.eqb_spec x w) as [->|]; [rewrite EA|]; auto.
    + intros u Hu. rewrite (sum_fupd n (fun p => ahead p u)) by auto. rewrite EA. specialize (Ibd u Hu). lia.
    + intros x u Hx Hu. unfold fupd. destruct (Z.eqb_spec x w) as [->|]; [rewrite EA|]; apply Id; auto.
    + intros t. rewrite (sum_fupd n (fun p => pending p t)) by auto. rewrite Epc. cbn [pending]. specialize (Ic t). lia.
    + exact Iw.
  - (* PLoop *)
    destruct Pw as (Hv & -> & Hvs). injection Hs as <-.
    destruct (Ib v Hv) as [Eb Hb].
    assert (HA : 1 <= ahead (st_pc s w) v).
    { rewrite Epc. cbn. unfold b2z. rewrite Z.eqb_refl. pose proof (cnt_nonneg v vs). lia. }
    assert (Hc : c v + 1 <= 2 ^ 64).
    { specialize (Ibd v Hv). pose proof (victims_sum v). specialize (Hov v Hv). unfold nw in *.
      pose proof (sumw_ge_term n (fun w => ahead (st_pc s w) v) w ltac:(intros; apply ahead_nonneg) Hw). cbv beta in *. lia. }
    pose proof (Hle v Hv) as Hlev.
    assert (Eb' : st_begin s v = c v) by (rewrite Eb; apply wrap_small; lia).
    rewrite Eb'.
    assert (Ebeg : forall u, 0 <= u < Z.of_nat n ->
       fupd (st_begin s) v (wrap 64 (c v + 1)) u = wrap 64 (fupd c v (c v + 1) u) /\ my_begin u <= fupd c v (c v + 1) u).
    { intros u Hu. unfold fupd. destruct (Z.eqb_spec u v) as [->|]; [split; [reflexivity|lia]|apply Ib; auto]. }
    destruct (Z.leb_spec (my_end v) (c v)) as [Hend|Hlt].
    + (* past the end *)
      assert (EA : forall u, ahead (PVictims vs) u = ahead (st_pc s w) u - b2z (v =? u)) by (intros; rewrite Epc; cbn; lia).
      constructor; cbn [st_begin st_pc st_calls].
      * intros x Hx. unfold fupd. destruct (Z.eqb_spec x w); [|auto]. cbn. auto.
      * exact Ebeg.
      * intros x u Hx. unfold fupd. destruct (Z.eqb_spec x w) as [->|]; [|auto]. rewrite EA. specialize (Ia w u Hw). unfold b2z. destruct (v =? u); lia.
      * intros u Hu. rewrite (sum_fupd n (fun p => ahead p u)) by auto. rewrite EA. specialize (Ibd u Hu).
        unfold fupd, b2z. destruct (Z.eqb_spec u v) as [->|]; [rewrite Z.eqb_refl; lia|].
        destruct (Z.eqb_spec v u); [congruence|lia].
      * intros x u Hx Hu. unfold fupd. destruct (Z.eqb_spec u v) as [->|]; [intros; lia|].
        destruct (Z.eqb_spec x w) as [->|]; [rewrite EA; unfold b2z; destruct (Z.eqb_spec v u); [congruence|]; rewrite Z.sub_0_r|]; apply Id; auto.
      * intros t. rewrite (sum_fupd n (fun p => pending p t)) by auto. rewrite Epc. cbn [pending].
        rewrite (sumw_upd n (covered my_begin my_end c t) (covered my_begin my_end (fupd c v (c v + 1)) t) v Hv).
        2:{ intros x Hx. apply covered_same; auto. }
        assert (covered my_begin my_end (fupd c v (c v + 1)) t v = covered my_begin my_end c t v) as ->.
        { unfold covered. rewrite fupd_eq. rewrite !Z.min_r by lia. reflexivity. }
        specialize (Ic t). lia.
      * exact Iw.
    + (* reserved task c v *)
      assert (EA : forall u, ahead (PCall (c v) v (my_end v) vs) u = ahead (st_pc s w) u) by (intros; rewrite Epc; reflexivity).
      constructor; cbn [st_begin st_pc st_calls].
      * intros x Hx. unfold fupd. destruct (Z.eqb_spec x w); [|auto]. cbn. auto.
      * exact Ebeg.
      * intros x u Hx. unfold fupd. destruct (Z.eqb_spec x w) as [->|]; [rewrite EA|]; auto.
      * intros u Hu. rewrite (sum_fupd n (fun p => ahead p u)) by auto. rewrite EA. specialize (Ibd u Hu).
        unfold fupd. destruct (Z.eqb_spec u v) as [->|]; [|lia].
        pose proof (sumw_le n (fun x => ahead (st_pc s x) v) (fun x => cnt v (victims x)) (fun x Hx => Ia x v Hx)).
        cbv beta in *. lia.
      * intros x u Hx Hu H1.
        assert (H2 : ahead (st_pc s x) u < cnt u (victims x)).
        { unfold fupd in H1. destruct (Z.eqb_spec x w) as [->|]; [rewrite EA in H1|]; exact H1. }
        specialize (Id x u Hx Hu H2). unfold fupd. destruct (Z.eqb_spec u v); [subst; lia|lia].
      * intros t. rewrite (sum_fupd n (fun p => pending p t)) by auto. rewrite Epc. cbn [pending].
        rewrite (sumw_upd n (covered my_begin my_end c t) (covered my_begin my_end (fupd c v (c v + 1)) t) v Hv).
        2:{ intros x Hx. apply covered_same; auto. }
        assert (covered my_begin my_end (fupd c v (c v + 1)) t v = covered my_begin my_end c t v + b2z (c v =? t)) as ->.
        { unfold covered. rewrite fupd_eq. rewrite !Z.min_l by lia. unfold b2z.
          destruct (Z.leb_spec (my_begin v) t), (Z.ltb_spec t (c v + 1)), (Z.ltb_spec t (c v)), (Z.eqb_spec (c v) t); cbn; lia. }
        specialize (Ic t). lia.
      * exact Iw.
  - (* PCall *)
    destruct Pw as (Hv & -> & Hvs). injection Hs as <-.
    assert (EA : forall u, ahead (PLoop v (my_end v) vs) u = ahead (st_pc s w) u) by (intros; rewrite Epc; reflexivity).
    constructor; cbn [st_begin st_pc st_calls].
    + intros x Hx. unfold fupd. destruct (Z.eqb_spec x w); [|auto]. cbn. auto.
    + exact Ib.
    + intros x u Hx. unfold fupd. destruct (Z.eqb_spec x w) as [->|]; [rewrite EA|]; auto.
    + intros u Hu. rewrite (sum_fupd n (fun p => ahead p u)) by auto. rewrite EA. specialize (Ibd u Hu). lia.
    + intros x u Hx Hu. unfold fupd. destruct (Z.eqb_spec x w) as [->|]; [rewrite EA|]; apply Id; auto.
    + intros t'. rewrite (sum_fupd n (fun p => pending p t')) by auto. rewrite Epc. cbn [pending]. specialize (Ic t').
      unfold calls_n, calls_for in *. cbn [filter fst]. unfold b2z. destruct (t =? t'); cbn [length]; lia.
    + constructor; [exact Hw|exact Iw].
Qed.

(** initial state *)
Lemma Inv_init s : (forall w, 0 <= w < nw -> st_begin s w = my_begin w) ->
  (forall w, 0 <= w < nw -> st_pc s w = PVictims (victims w)) -> st_calls s = [] ->
  (forall w, 0 <= w < nw -> Forall (fun v => 0 <= v < nw) (victims w)) ->
  Inv n my_begin my_end victims s my_begin.
Proof.
  intros Hb Hp Hc Hf. unfold nw in *. constructor.
  - intros w Hw. rewrite Hp by auto. cbn. auto.
  - intros v Hv. rewrite Hb by auto. specialize (Hle v Hv). specialize (Hov v Hv). rewrite wrap_small by lia. lia.
  - intros w v Hw. rewrite Hp by auto. cbn. lia.
  - intros v Hv. rewrite (sumw_ext n (fun w => ahead (st_pc s w) v) (fun w => cnt v (victims w))).
    + specialize (Hle v Hv). lia.
    + intros w Hw. rewrite Hp by auto. reflexivity.
  - intros w v Hw Hv. rewrite Hp by auto. cbn. lia.
  - intros t. rewrite Hc. unfold calls_n, calls_for. cbn [filter length].
    rewrite (sumw_ext n (fun w => pending (st_pc s w) t) (fun _ => 0)).
    2:{ intros w Hw. rewrite Hp by auto. reflexivity. }
    rewrite (sumw_ext n (covered my_begin my_end my_begin t) (fun _ => 0)).
    2:{ intros w Hw. unfold covered, b2z. specialize (Hle w Hw). rewrite Z.min_l by lia.
        destruct (Z.leb_spec (my_begin w) t), (Z.ltb_spec t (my_begin w)); cbn; lia. }
    rewrite !sumw_const. lia.
  - rewrite Hc. constructor.
Qed.

(** ** termination measure *)
Definition pcw (p : pc) : Z :=
  match p with
  | PSingle => 1
  | PVictims vs => 2 * Z.of_nat (length vs)
  | PLoop _ _ vs => 2 * Z.of_nat (length vs) + 1
  | PCall _ _ _ vs => 2 * Z.of_nat (length vs) + 2
  end.
Definition left_ (c : Z -> Z) (v : Z) : Z := Z.max 0 (my_end v - c v).
Definition meas (s : state) (c : Z -> Z) : Z := sumw n (fun w => pcw (st_pc s w)) + 2 * sumw n (left_ c).

Lemma meas_step tb te s c w s' : Inv n my_begin my_end victims s c -> 0 <= w < nw ->
  step tb te my_end w s = Some s' -> meas s' (next_c s w c) < meas s c.
Proof.
  intros HI Hw Hs. pose proof (I_pc _ _ _ _ _ _ HI w Hw) as Pw. unfold meas, next_c. unfold step in Hs.
  destruct (st_pc s w) as [|vs|v e vs|t v e vs] eqn:Epc; [contradiction| | |].
  - destruct vs as [|v vs]; [discriminate|]. injection Hs as <-. cbn [st_pc].
    rewrite (sum_fupd n pcw) by auto. rewrite Epc. cbn [pcw length]. lia.
  - destruct (Inv_noov s c w v e vs HI Hw Epc) as (Hv & -> & Hc & Eb). rewrite Eb in Hs. injection Hs as <-. cbn [st_pc].
    rewrite (sum_fupd n pcw) by auto. rewrite Epc.
    rewrite (sumw_upd n (left_ c) (left_ (fupd c v (c v + 1))) v Hv).
    2:{ intros x Hx. unfold left_. rewrite fupd_ne by auto. reflexivity. }
    unfold left_ at 2 3. rewrite fupd_eq.
    destruct (Z.leb_spec (my_end v) (c v)); cbn [pcw]; lia.
  - injection Hs as <-. cbn [st_pc]. rewrite (sum_fupd n pcw) by auto. rewrite Epc. cbn [pcw]. lia.
Qed.

Lemma left_nonneg c v : 0 <= left_ c v. Proof. unfold left_. lia. Qed.
Lemma pcw_nonneg p : 0 <= pcw p. Proof. destruct p; cbn [pcw]; lia. Qed.
Lemma meas_nonneg s c : 0 <= meas s c.
Proof.
  unfold meas. pose proof (sumw_nonneg n (fun w => pcw (st_pc s w)) ltac:(intros; apply pcw_nonneg)).
  pose proof (sumw_nonneg n (left_ c) ltac:(intros; apply left_nonneg)). lia.
Qed.

Lemma exec_Inv tb te sched : forall s c s', Inv n my_begin my_end victims s c -> Forall (fun w => 0 <= w < nw) sched ->
  exec tb te my_end sched s = Some s' ->
  exists c', Inv n my_begin my_end victims s' c' /\ Z.of_nat (length sched) + meas s' c' <= meas s c.
Proof.
  induction sched as [|w ws IH]; intros s c s' HI Hf He.
  - injection He as <-. exists c. cbn. split; [auto|lia].
  - cbn in He. destruct (step tb te my_end w s) as [s1|] eqn:Es; [|discriminate].
    inversion Hf as [|? ? Hw Hws]; subst.
    pose proof (Inv_step _ _ _ _ _ _ HI Hw Es) as HI1. pose proof (meas_step _ _ _ _ _ _ HI Hw Es) as Hm.
    destruct (IH _ _ _ HI1 Hws He) as (c' & HI' & Hm'). exists c'. split; [auto|]. cbn [length]. lia.
Qed.

(** a worker that has not finished can always move *)
Lemma progress tb te s w : st_pc s w <> PVictims [] -> exists s', step tb te my_end w s = Some s'.
Proof.
  intros H. unfold step. destruct (st_pc s w) as [|vs|v e vs|t v e vs]; try (eexists; reflexivity).
  destruct vs; [contradiction|]. eexists; reflexivity.
Qed.
End Steal.

(** telescoping: the ranges partition [bound 0, bound n) *)
Lemma partition_sum n bound t : (forall w, 0 <= w < Z.of_nat n -> bound w <= bound (w + 1)) ->
  bound 0 <= bound (Z.of_nat n) /\
  sumw n (fun w => b2z ((bound w <=? t) && (t <? bound (w + 1)))) = b2z ((bound 0 <=? t) && (t <? bound (Z.of_nat n))).
Proof.
  induction n as [|n IH]; intros H.
  - cbn. split; [lia|]. unfold b2z. destruct (Z.leb_spec (bound 0) t), (Z.ltb_spec t (bound 0)); cbn; lia.
  - cbn [sumw]. destruct IH as [I1 I2]; [intros; apply H; lia|]. rewrite I2.
    pose proof (H (Z.of_nat n) ltac:(lia)) as Hn. replace (Z.of_nat (S n)) with (Z.of_nat n + 1) by lia.
    split; [lia|]. unfold b2z.
    destruct (Z.leb_spec (bound 0) t), (Z.ltb_spec t (bound (Z.of_nat n))), (Z.leb_spec (bound (Z.of_nat n)) t), (Z.ltb_spec t (bound (Z.of_nat n + 1))); cbn; lia.
Qed.

Lemma sumw_left n bound : sumw n (fun w => bound (w + 1) - bound w) = bound (Z.of_nat n) - bound 0.
Proof. induction n as [|n IH]; [cbn; lia|]. cbn [sumw]. rewrite IH. replace (Z.of_nat (S n)) with (Z.of_nat n + 1) by lia. lia. Qed.

Lemma once_in_b2z b e t : Z.of_nat (once_in b e t) = b2z ((b <=? t) && (t <? e)).
Proof. unfold once_in, b2z. destruct (_ && _); reflexivity. Qed.

(** ** Runs *)
Definition sched_ok (nw : Z) (sched : list Z) := Forall (fun w => 0 <= w < nw) sched.

Definition run_good (begin end_ nw : Z) (victims : Z -> list Z) (my_end : Z -> Z) (s0 : state) (maxlen : Z) : Prop :=
  forall sched s, sched_ok nw sched -> exec begin end_ my_end sched s0 = Some s ->
    (forall t, (calls_for t (st_calls s) <= once_in begin end_ t)%nat) /\
    workers_ok nw (st_calls s) /\
    Z.of_nat (length sched) <= maxlen /\
    (finished nw s -> forall t, calls_for t (st_calls s) = once_in begin end_ t) /\
    (~ finished nw s -> exists w s', 0 <= w < nw /\ step begin end_ my_end w s = Some s').

Lemma not_finished nw s : 0 <= nw -> ~ finished nw s -> exists w, 0 <= w < nw /\ st_pc s w <> PVictims [].
Proof.
  intros Hn H.
  assert (D : forall n : nat, (forall w, 0 <= w < Z.of_nat n -> st_pc s w = PVictims []) \/ exists w, 0 <= w < Z.of_nat n /\ st_pc s w <> PVictims []).
  { induction n as [|n [IH|(w & Hw & E)]].
    - left. intros; lia.
    - assert (Dec : st_pc s (Z.of_nat n) = PVictims [] \/ st_pc s (Z.of_nat n) <> PVictims []).
      { destruct (st_pc s (Z.of_nat n)) as [|vs|v e vs|t v e vs]; try (right; discriminate). destruct vs; [left; reflexivity|right; discriminate]. }
      destruct Dec as [E|E].
      + left. intros w Hw. destruct (Z.eq_dec w (Z.of_nat n)) as [->|]; [exact E|apply IH; lia].
      + right. exists (Z.of_nat n). split; [lia|exact E].
    - right. exists w. split; [lia|exact E]. }
  destruct (D (Z.to_nat nw)) as [F|(w & Hw & E)].
  - exfalso. apply H. intros w Hw. apply F. lia.
  - exists w. split; [lia|exact E].
Qed.

Lemma stealing_good begin end_ n victims s0 bound :
  let nw := Z.of_nat n in
  0 <= begin <= end_ -> end_ + nw <= 2 ^ 64 ->
  bound 0 = begin -> bound nw = end_ -> (forall w, 0 <= w < nw -> bound w <= bound (w + 1)) ->
  (forall w, 0 <= w < nw -> NoDup (victims w) /\ In w (victims w) /\ (length (victims w) <= 4)%nat /\ Forall (fun v => 0 <= v < nw) (victims w)) ->
  (forall w, 0 <= w < nw -> st_begin s0 w = bound w) ->
  (forall w, 0 <= w < nw -> st_pc s0 w = PVictims (victims w)) -> st_calls s0 = [] ->
  forall my_end, (forall w, 0 <= w < nw -> my_end w = bound (w + 1)) ->
  run_good begin end_ nw victims my_end s0 (8 * nw + 2 * (end_ - begin)).
Proof.
  intros nw Hb Hov B0 Bn Bm Hv Sb Sp Sc my_end Hme.
  assert (Bb : forall w, 0 <= w <= nw -> begin <= bound w <= end_).
  { assert (G : forall k : nat, (k <= n)%nat -> begin <= bound (Z.of_nat k) /\ bound (Z.of_nat k) <= end_).
    { intros k Hk. split.
      - clear -Hk B0 Bm. induction k as [|k IH]; [cbn; lia|]. specialize (IH ltac:(lia)). specialize (Bm (Z.of_nat k) ltac:(unfold nw; lia)).
        replace (Z.of_nat (S k)) with (Z.of_nat k + 1) by lia. lia.
      - assert (forall j : nat, (j <= n)%nat -> bound (Z.of_nat (n - j)) <= end_).
        { clear -Bn Bm. induction j as [|j IH]; intros Hj; [replace (n - 0)%nat with n by lia; fold nw; lia|].
          specialize (IH ltac:(lia)). specialize (Bm (Z.of_nat (n - S j)) ltac:(unfold nw; lia)).
          replace (Z.of_nat (n - S j) + 1) with (Z.of_nat (n - j)) in Bm by lia. lia. }
        specialize (H (n - k)%nat ltac:(lia)). replace (n - (n - k))%nat with k in H by lia. exact H. }
    intros w Hw. specialize (G (Z.to_nat w)). rewrite Z2Nat.id in G by lia. apply G. unfold nw in Hw; lia. }
  assert (Hle : forall v, 0 <= v < Z.of_nat n -> 0 <= bound v <= my_end v).
  { intros v Hv'. rewrite Hme by auto. specialize (Bb v ltac:(unfold nw; lia)). specialize (Bm v Hv'). lia. }
  assert (Hnd : forall w, 0 <= w < Z.of_nat n -> NoDup (victims w)) by (intros; apply Hv; auto).
  assert (Ho : forall v, 0 <= v < Z.of_nat n -> my_end v + Z.of_nat n <= 2 ^ 64).
  { intros v Hv'. rewrite Hme by auto. specialize (Bb (v + 1) ltac:(unfold nw; lia)). fold nw. lia. }
  assert (I0 : Inv n bound my_end victims s0 bound).
  { apply Inv_init; auto. intros w Hw. apply Hv. auto. }
  intros sched s Hsch Hex.
  destruct (exec_Inv n bound my_end victims Hle Hnd Ho begin end_ sched s0 bound s I0 Hsch Hex) as (c & HI & Hm).
  assert (Cov : forall t v, 0 <= v < Z.of_nat n -> covered bound my_end c t v <= b2z ((bound v <=? t) && (t <? bound (v + 1)))).
  { intros t v Hv'. unfold covered, b2z. rewrite Hme by auto.
    destruct (Z.leb_spec (bound v) t), (Z.ltb_spec t (Z.min (c v) (bound (v + 1)))), (Z.ltb_spec t (bound (v + 1))); cbn; lia. }
  assert (Tot : forall t, sumw n (fun w => b2z ((bound w <=? t) && (t <? bound (w + 1)))) = Z.of_nat (once_in begin end_ t)).
  { intros t. destruct (partition_sum n bound t Bm) as [_ ->]. fold nw. rewrite B0, Bn. symmetry. apply once_in_b2z. }
  repeat split.
  - intros t. pose proof (I_calls _ _ _ _ _ _ HI t) as Ic. 
    pose proof (sumw_nonneg n (fun w => pending (st_pc s w) t) ltac:(intros; apply pending_nonneg)).
    pose proof (sumw_le n _ _ (Cov t)). rewrite Tot in H0. unfold calls_n in Ic. lia.
  - apply (I_workers _ _ _ _ _ _ HI).
  - pose proof (meas_nonneg n my_end s c).
    assert (meas n my_end s0 bound <= 8 * nw + 2 * (end_ - begin)); [|lia].
    unfold meas. rewrite (sumw_ext n (left_ my_end bound) (fun w => bound (w + 1) - bound w)).
    2:{ intros w Hw. unfold left_. specialize (Bm w Hw). rewrite Hme by auto. lia. }
    rewrite sumw_left. fold nw. rewrite B0, Bn.
    assert (sumw n (fun w => pcw (st_pc s0 w)) <= sumw n (fun _ => 8)).
    { apply sumw_le. intros w Hw. rewrite Sp by auto. cbn [pcw]. destruct (Hv w Hw) as (_ & _ & L & _). lia. }
    rewrite sumw_const in H0. fold nw in H0. lia.
  - intros Hfin t. pose proof (I_calls _ _ _ _ _ _ HI t) as Ic.
    rewrite (sumw_ext n (fun w => pending (st_pc s w) t) (fun _ => 0)) in Ic.
    2:{ intros w Hw. rewrite Hfin by auto. reflexivity. }
    rewrite sumw_const in Ic.
    rewrite (sumw_ext n (covered bound my_end c t) (fun w => b2z ((bound w <=? t) && (t <? bound (w + 1))))) in Ic.
    2:{ intros w Hw. unfold covered.
        assert (my_end w <= c w) as HD.
        { apply (I_done _ _ _ _ _ _ HI w w Hw Hw). rewrite Hfin by auto. cbn. destruct (Hv w Hw) as (_ & Hin & _). apply cnt_pos in Hin. lia. }
        rewrite Z.min_r by lia. rewrite Hme by auto. reflexivity. }
    rewrite Tot in Ic. unfold calls_n in Ic. lia.
  - intros Hnf. apply not_finished in Hnf as (w & Hw & E); [|unfold nw; lia].
    destruct (progress my_end begin end_ s w E) as (s' & Es). exists w, s'. auto.
Qed.

(** the one-task-per-worker mode *)
Record InvS (n : nat) (begin end_ : Z) (s : state) : Prop := {
  S_pc : forall w, 0 <= w < Z.of_nat n -> st_pc s w = PSingle \/ st_pc s w = PVictims [];
  S_calls : forall t, calls_n t (st_calls s) = sumw n (fun w => match st_pc s w with PSingle => 0 | _ => b2z ((begin + w =? t) && (t <? end_)) end);
  S_workers : workers_ok (Z.of_nat n) (st_calls s)
}.

Lemma single_sum n begin end_ t : end_ <= begin + Z.of_nat n ->
  sumw n (fun w => b2z ((begin + w =? t) && (t <? end_))) = Z.of_nat (once_in begin end_ t).
Proof.
  intros H. rewrite once_in_b2z.
  assert (G : forall m, sumw m (fun w => b2z ((begin + w =? t) && (t <? end_))) = b2z ((begin <=? t) && (t <? begin + Z.of_nat m) && (t <? end_))).
  { induction m as [|m IH].
    - cbn. unfold b2z. destruct (Z.leb_spec begin t), (Z.ltb_spec t (begin + 0)); cbn; lia.
    - cbn [sumw]. rewrite IH. unfold b2z.
      destruct (Z.leb_spec begin t), (Z.ltb_spec t (begin + Z.of_nat m)), (Z.ltb_spec t end_), (Z.eqb_spec (begin + Z.of_nat m) t), (Z.ltb_spec t (begin + Z.of_nat (S m))); cbn [andb]; lia. }
  rewrite G. unfold b2z. destruct (Z.leb_spec begin t), (Z.ltb_spec t (begin + Z.of_nat n)), (Z.ltb_spec t end_); cbn; lia.
Qed.

Lemma single_good begin end_ n victims s0 my_end :
  let nw := Z.of_nat n in
  0 <= begin <= end_ -> begin + nw <= 2 ^ 64 -> end_ <= begin + nw ->
  (forall w, 0 <= w < nw -> st_pc s0 w = PSingle) -> st_calls s0 = [] ->
  run_good begin end_ nw victims my_end s0 nw.
Proof.
  intros nw Hb Hov Hnw Sp Sc.
  assert (G : forall sched s s', InvS n begin end_ s -> sched_ok nw sched -> exec begin end_ my_end sched s = Some s' ->
      InvS n begin end_ s' /\ Z.of_nat (length sched) + sumw n (fun w => pcw (st_pc s' w)) <= sumw n (fun w => pcw (st_pc s w))).
  { induction sched as [|w ws IH]; intros s s' HI Hf He.
    - injection He as <-. split; [auto|cbn; lia].
    - cbn in He. destruct (step begin end_ my_end w s) as [s1|] eqn:Es; [|discriminate].
      inversion Hf as [|? ? Hw Hws]; subst.
      destruct HI as [Ipc Ic Iw]. unfold step in Es. destruct (Ipc w Hw) as [E|E]; rewrite E in Es; [|discriminate].
      injection Es as <-. rewrite (wrap_small 64 (begin + w)) in He by (unfold nw in *; lia).
      edestruct IH as [A B]; [|exact Hws|exact He|].
      + constructor; cbn [st_pc st_calls].
        * intros x Hx. unfold fupd. destruct (Z.eqb_spec x w); auto.
        * intros t. pose proof (sumw_upd n (fun x => match st_pc s x with PSingle => 0 | _ => b2z ((begin + x =? t) && (t <? end_)) end)
             (fun x => match fupd (st_pc s) w (PVictims []) x with PSingle => 0 | _ => b2z ((begin + x =? t) && (t <? end_)) end) w Hw) as U.
          rewrite U by (intros x Hx; rewrite fupd_ne by auto; reflexivity). clear U.
          rewrite fupd_eq, E, <- Ic. unfold calls_n, calls_for.
          destruct (Z.ltb_spec (begin + w) end_).
          -- cbn [filter fst]. unfold b2z. destruct (Z.eqb_spec (begin + w) t), (Z.ltb_spec t end_); cbn [andb length]; lia.
          -- unfold b2z. destruct (Z.eqb_spec (begin + w) t), (Z.ltb_spec t end_); cbn [andb]; lia.
        * destruct (_ <? _); [constructor; [exact Hw|exact Iw]|exact Iw].
      + split; [exact A|]. cbn [st_pc] in B. rewrite (sum_fupd n pcw) in B by auto. rewrite E in B. cbn [pcw length] in *. lia. }
  intros sched s Hsch Hex.
  assert (I0 : InvS n begin end_ s0).
  { constructor.
    - intros; left; auto.
    - intros t. rewrite Sc. rewrite (sumw_ext n _ (fun _ => 0)); [rewrite sumw_const; cbn; lia|]. intros w Hw. rewrite Sp by auto. reflexivity.
    - rewrite Sc. constructor. }
  destruct (G sched s0 s I0 Hsch Hex) as [[Ipc Ic Iw] Hlen].
  repeat split.
  - intros t. specialize (Ic t). unfold calls_n in Ic.
    pose proof (single_sum n begin end_ t ltac:(unfold nw in *; lia)) as SS.
    pose proof (sumw_le n (fun w => match st_pc s w with PSingle => 0 | _ => b2z ((begin + w =? t) && (t <? end_)) end) (fun w => b2z ((begin + w =? t) && (t <? end_)))) as L.
    cbv beta in *. rewrite SS in L. 
    assert (Z.of_nat (calls_for t (st_calls s)) <= Z.of_nat (once_in begin end_ t)); [|lia]. rewrite Ic. apply L.
    intros w Hw. destruct (st_pc s w); unfold b2z; destruct (_ && _); lia.
  - exact Iw.
  - assert (sumw n (fun w => pcw (st_pc s0 w)) = nw).
    { rewrite (sumw_ext n _ (fun _ => 1)); [rewrite sumw_const; unfold nw; lia|]. intros w Hw. rewrite Sp by auto. reflexivity. }
    pose proof (sumw_nonneg n (fun w => pcw (st_pc s w)) ltac:(intros w _; cbv beta; destruct (st_pc s w); cbn [pcw]; lia)). cbv beta in *. lia.
  - intros Hfin t. specialize (Ic t). unfold calls_n in Ic.
    rewrite (sumw_ext n _ (fun w => b2z ((begin + w =? t) && (t <? end_)))) in Ic by (intros w Hw; rewrite Hfin by auto; reflexivity).
    rewrite single_sum in Ic by (unfold nw in *; lia). lia.
  - intros Hnf. apply not_finished in Hnf as (w & Hw & E); [|unfold nw; lia].
    destruct (progress my_end begin end_ s w E) as (s' & Es). exists w, s'. auto.
Qed.

Lemma inline_calls begin end_ t : begin <= end_ ->
  calls_for t (map (fun i => (begin + Z.of_nat i, 0)) (seq 0 (Z.to_nat (end_ - begin)))) = once_in begin end_ t.
Proof.
  intros H.
  assert (G : forall m, calls_for t (map (fun i => (begin + Z.of_nat i, 0)) (seq 0 m)) = once_in begin (begin + Z.of_nat m) t).
  { induction m as [|m IH].
    - cbn. unfold once_in. destruct (Z.leb_spec begin t), (Z.ltb_spec t (begin + 0)); cbn; lia.
    - rewrite seq_S, map_app. unfold calls_for in *. rewrite filter_app, app_length, IH. cbn [map filter fst plus].
      unfold once_in. destruct (Z.eqb_spec (begin + Z.of_nat m) t), (Z.leb_spec begin t), (Z.ltb_spec t (begin + Z.of_nat m)), (Z.ltb_spec t (begin + Z.of_nat (S m))); cbn [andb length]; lia. }
  rewrite G. f_equal. lia.
Qed.
