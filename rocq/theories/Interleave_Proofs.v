(** Proofs about LoadInterleaved / StoreInterleaved (see Interleave_Model.v). *)
From Coq Require Import ZArith List Bool Lia.
From Verif Require Import Word Vec_Model Vec_Proofs Partition_Proofs Interleave_Model.
Import ListNotations.
Local Open Scope nat_scope.

(** lanes j, k + j, 2k + j, ... *)
Definition deint (s k j N : nat) (r : list Z) : list Z := flat_map (fun i => lane s (k * i + j) r) (seq 0 N).
(** lane 0 of each of [vs], then lane 1 of each, ... *)
Definition inter (s N : nat) (vs : list (list Z)) : list Z := flat_map (fun i => flat_map (lane s i) vs) (seq 0 N).

Ltac expl1 A H := destruct A as [|?x A]; [discriminate H|].
Ltac expl0 A H := destruct A; [clear H|discriminate H].
Tactic Notation "expl" int_or_var(n) hyp(A) hyp(H) := do n (expl1 A H); expl0 A H.
Ltac fin := lazy -[Z.lxor Z.lor]; rewrite ?Z.lxor_0_l, ?Z.lxor_0_r, ?Z.lor_0_l, ?Z.lor_0_r; reflexivity.

Definition okcfg (s nb : nat) : Prop := (nb = 16 /\ (s = 1 \/ s = 2 \/ s = 4 \/ s = 8)) \/ (nb = 8 /\ (s = 1 \/ s = 2 \/ s = 4)) \/ (nb = 4 /\ (s = 1 \/ s = 2)) \/ (nb = 2 /\ s = 1).

Lemma li3_ok s nb A B C : okcfg s nb -> length A = nb -> length B = nb -> length C = nb ->
  p30 (li3 s nb A B C) = deint s 3 0 (nb / s) (A ++ B ++ C) /\ p31 (li3 s nb A B C) = deint s 3 1 (nb / s) (A ++ B ++ C) /\
  p32 (li3 s nb A B C) = deint s 3 2 (nb / s) (A ++ B ++ C).
Proof.
  intros O HA HB HC. destruct O as [[-> O]|[[-> O]|[[-> O]|[-> ->]]]]; [expl 16 A HA; expl 16 B HB; expl 16 C HC|expl 8 A HA; expl 8 B HB; expl 8 C HC|expl 4 A HA; expl 4 B HB; expl 4 C HC|expl 2 A HA; expl 2 B HB; expl 2 C HC].
  - destruct O as [->|[->|[->| ->]]]; repeat split; fin.
  - destruct O as [->|[->| ->]]; repeat split; fin.
  - destruct O as [->| ->]; repeat split; fin.
  - repeat split; fin.
Qed.
Lemma li4_ok s nb A B C D : okcfg s nb -> length A = nb -> length B = nb -> length C = nb -> length D = nb ->
  p40 (li4 s nb A B C D) = deint s 4 0 (nb / s) (A ++ B ++ C ++ D) /\ p41 (li4 s nb A B C D) = deint s 4 1 (nb / s) (A ++ B ++ C ++ D) /\
  p42 (li4 s nb A B C D) = deint s 4 2 (nb / s) (A ++ B ++ C ++ D) /\ p43 (li4 s nb A B C D) = deint s 4 3 (nb / s) (A ++ B ++ C ++ D).
Proof.
  intros O HA HB HC HD. destruct O as [[-> O]|[[-> O]|[[-> O]|[-> ->]]]]; [expl 16 A HA; expl 16 B HB; expl 16 C HC; expl 16 D HD|expl 8 A HA; expl 8 B HB; expl 8 C HC; expl 8 D HD|expl 4 A HA; expl 4 B HB; expl 4 C HC; expl 4 D HD|expl 2 A HA; expl 2 B HB; expl 2 C HC; expl 2 D HD].
  - destruct O as [->|[->|[->| ->]]]; repeat split; fin.
  - destruct O as [->|[->| ->]]; repeat split; fin.
  - destruct O as [->| ->]; repeat split; fin.
  - repeat split; fin.
Qed.
Definition full16 (s : nat) : Prop := s = 1 \/ s = 2 \/ s = 4 \/ s = 8.
Lemma si2_ok s a b : full16 s -> length a = 16 -> length b = 16 -> interleave_lower s a b ++ interleave_upper s a b = inter s (16 / s) [a; b].
Proof. intros O HA HB. expl 16 a HA; expl 16 b HB. destruct O as [->|[->|[->| ->]]]; fin. Qed.
Lemma si3_ok s a b c : full16 s -> length a = 16 -> length b = 16 -> length c = 16 ->
  p30 (si3 s a b c) ++ p31 (si3 s a b c) ++ p32 (si3 s a b c) = inter s (16 / s) [a; b; c] /\
  length (p30 (si3 s a b c)) = 16 /\ length (p31 (si3 s a b c)) = 16 /\ length (p32 (si3 s a b c)) = 16.
Proof. intros O HA HB HC. expl 16 a HA; expl 16 b HB; expl 16 c HC. destruct O as [->|[->|[->| ->]]]; repeat split; fin. Qed.
Lemma si4_ok s a b c d : full16 s -> length a = 16 -> length b = 16 -> length c = 16 -> length d = 16 ->
  p40 (si4 s a b c d) ++ p41 (si4 s a b c d) ++ p42 (si4 s a b c d) ++ p43 (si4 s a b c d) = inter s (16 / s) [a; b; c; d] /\
  length (p40 (si4 s a b c d)) = 16 /\ length (p41 (si4 s a b c d)) = 16 /\ length (p42 (si4 s a b c d)) = 16 /\ length (p43 (si4 s a b c d)) = 16.
Proof. intros O HA HB HC HD. expl 16 a HA; expl 16 b HB; expl 16 c HC; expl 16 d HD. destruct O as [->|[->|[->| ->]]]; repeat split; fin. Qed.

(** ** lanes *)
Lemma lane_app_l s i a b : (i + 1) * s <= length a -> lane s i (a ++ b) = lane s i a.
Proof.
  intros H. unfold lane. rewrite skipn_app, firstn_app, skipn_length. replace (s - (length a - i * s)) with 0 by nia. cbn [firstn]. apply app_nil_r.
Qed.
Lemma lane_app_r s m i a b : length a = m * s -> lane s (m + i) (a ++ b) = lane s i b.
Proof.
  intros H. unfold lane. rewrite skipn_app. rewrite skipn_all2 by nia. cbn [app]. do 2 f_equal. nia.
Qed.
Lemma lane_length s i b : (i + 1) * s <= length b -> length (lane s i b) = s.
Proof. intros H. unfold lane. rewrite firstn_length, skipn_length. nia. Qed.
Lemma flat_map_ext_in {A B} (f g : A -> list B) l : (forall x, In x l -> f x = g x) -> flat_map f l = flat_map g l.
Proof. induction l as [|x l IH]; intros H; [reflexivity|]. cbn [flat_map]. rewrite H by (left; reflexivity). f_equal. apply IH. intros y Hy. apply H. right. exact Hy. Qed.
Lemma flat_map_seq {B} (f : nat -> list B) n m : flat_map f (seq n m) = flat_map (fun i => f (n + i)) (seq 0 m).
Proof.
  revert f n. induction m as [|m IH]; intros f n; [reflexivity|]. cbn [seq flat_map]. rewrite Nat.add_0_r. f_equal. rewrite IH. rewrite (IH _ 1).
  apply flat_map_ext_in. intros i _. f_equal. lia.
Qed.
Lemma flat_map_len {A B} (f : A -> list B) s l : (forall x, In x l -> length (f x) = s) -> length (flat_map f l) = length l * s.
Proof. induction l as [|x l IH]; intros H; [reflexivity|]. cbn [flat_map length]. rewrite app_length, H by (left; reflexivity). rewrite IH by (intros; apply H; right; assumption). lia. Qed.
Lemma lane_flat s (f : nat -> list Z) N i : (forall x, x < N -> length (f x) = s) -> i < N -> lane s i (flat_map f (seq 0 N)) = f i.
Proof.
  revert f i. induction N as [|N IH]; intros f i H Hi; [lia|]. cbn [seq flat_map]. destruct i as [|i].
  - rewrite lane_app_l by (rewrite H; lia). unfold lane. cbn [Nat.mul skipn]. rewrite <- (H 0) by lia. apply firstn_all.
  - rewrite (lane_app_r s 1 i) by (rewrite H; lia). rewrite flat_map_seq. rewrite IH; [reflexivity| |lia]. intros x Hx. apply H. lia.
Qed.

(** ** deint *)
Lemma deint_app s k j N1 N2 r1 r2 : j < k -> length r1 = k * N1 * s -> deint s k j (N1 + N2) (r1 ++ r2) = deint s k j N1 r1 ++ deint s k j N2 r2.
Proof.
  intros Hj HL. unfold deint. rewrite seq_app, flat_map_app. f_equal.
  - apply flat_map_ext_in. intros i Hi. apply in_seq in Hi. apply lane_app_l. rewrite HL. assert (k * i + j + 1 <= k * N1) by nia. nia.
  - cbn [Nat.add]. rewrite flat_map_seq. apply flat_map_ext_in. intros i _. replace (k * (N1 + i) + j) with (k * N1 + (k * i + j)) by nia. apply lane_app_r. nia.
Qed.
Lemma deint_lane s k j N r i : j < k -> k * N * s <= length r -> i < N -> lane s i (deint s k j N r) = lane s (k * i + j) r.
Proof.
  intros Hj HL Hi. unfold deint. apply (lane_flat s (fun i => lane s (k * i + j) r)); [|exact Hi]. intros x Hx. apply lane_length. assert (k * x + j + 1 <= k * N) by nia. nia.
Qed.
Lemma deint_length s k j N r : j < k -> k * N * s <= length r -> length (deint s k j N r) = N * s.
Proof.
  intros Hj HL. unfold deint. rewrite (flat_map_len _ s), seq_length; [reflexivity|]. intros x Hx. apply in_seq in Hx. apply lane_length. assert (k * x + j + 1 <= k * N) by nia. nia.
Qed.
(** ** inter *)
Lemma inter_app s N1 N2 ps : Forall (fun p => length (fst p) = N1 * s) ps ->
  inter s (N1 + N2) (map (fun p => fst p ++ snd p) ps) = inter s N1 (map fst ps) ++ inter s N2 (map snd ps).
Proof.
  intros HF. unfold inter. rewrite seq_app, flat_map_app. f_equal.
  - apply flat_map_ext_in. intros i Hi. apply in_seq in Hi. rewrite !flat_map_concat_map, !map_map. f_equal. apply map_ext_in. intros p Hp.
    rewrite Forall_forall in HF. apply lane_app_l. rewrite (HF _ Hp). nia.
  - cbn [Nat.add]. rewrite flat_map_seq. apply flat_map_ext_in. intros i _. rewrite !flat_map_concat_map, !map_map. f_equal. apply map_ext_in. intros p Hp.
    rewrite Forall_forall in HF. apply lane_app_r. apply HF, Hp.
Qed.
Lemma inter_length s N vs : Forall (fun v => N * s <= length v) vs -> length (inter s N vs) = N * (length vs * s).
Proof.
  intros HF. unfold inter. rewrite (flat_map_len _ (length vs * s)), seq_length; [reflexivity|]. intros i Hi. apply in_seq in Hi.
  apply flat_map_len. intros v Hv. rewrite Forall_forall in HF. specialize (HF _ Hv). apply lane_length. nia.
Qed.
Lemma flat_map_map_seq (f : list Z -> list Z) vs : flat_map f vs = flat_map (fun j => f (nth j vs [])) (seq 0 (length vs)).
Proof.
  induction vs as [|v vs IH]; [reflexivity|]. cbn [length seq flat_map nth]. f_equal. rewrite flat_map_seq. rewrite IH. apply flat_map_ext_in. intros i _. reflexivity.
Qed.
Lemma inter_lane s N vs i j : Forall (fun v => N * s <= length v) vs -> i < N -> j < length vs -> lane s (length vs * i + j) (inter s N vs) = lane s i (nth j vs []).
Proof.
  intros HF Hi Hj. replace (inter s N vs) with (inter s (i + (1 + (N - i - 1))) vs) by (f_equal; lia).
  unfold inter. rewrite !seq_app, !flat_map_app. cbn [Nat.add].
  rewrite Forall_forall in HF.
  replace (length vs * i + j) with (i * length vs + j) by lia.
  rewrite lane_app_r by (rewrite (flat_map_len _ (length vs * s)), seq_length; [nia|]; intros x Hx; apply in_seq in Hx; apply flat_map_len; intros v Hv; specialize (HF _ Hv); apply lane_length; nia).
  cbn [seq flat_map]. rewrite app_nil_r.
  assert (HL : forall v, In v vs -> length (lane s i v) = s) by (intros v Hv; specialize (HF _ Hv); apply lane_length; nia).
  rewrite lane_app_l by (rewrite (flat_map_len _ s) by exact HL; apply Nat.mul_le_mono_r; unfold block; lia).
  rewrite flat_map_map_seq. apply (lane_flat s (fun j => lane s i (nth j vs []))); [|exact Hj]. intros x Hx. apply HL, nth_In, Hx.
Qed.

(** ** chunks *)
Lemma chunks n nb (r : list Z) : length r = n * nb -> exists bs : list (list Z), length bs = n /\ Forall (fun b => length b = nb) bs /\ concat bs = r.
Proof.
  revert r. induction n as [|n IH]; intros r H.
  - exists []. destruct r; [|discriminate H]. repeat split; constructor.
  - destruct (IH (skipn nb r)) as (bs & HL & HF & HC); [rewrite skipn_length; nia|].
    exists (firstn nb r :: bs). cbn [length concat]. rewrite HC, firstn_skipn. split; [lia|]. split; [|reflexivity]. constructor; [|exact HF]. rewrite firstn_length. nia.
Qed.
Lemma concat_len {A} nb (bs : list (list A)) : Forall (fun b => length b = nb) bs -> length (concat bs) = length bs * nb.
Proof. induction 1 as [|b bs Hb HF IH]; [reflexivity|]. cbn [concat length]. rewrite app_length. lia. Qed.
Lemma nth_chunk nb (bs : list (list Z)) i : Forall (fun b => length b = nb) bs -> i < length bs -> firstn nb (skipn (i * nb) (concat bs)) = nth i bs [].
Proof.
  intros HF Hi. change (lane nb i (concat bs) = nth i bs []).
  assert (E : concat bs = flat_map (fun j => nth j bs []) (seq 0 (length bs))).
  { rewrite <- (map_id bs) at 1. rewrite <- flat_map_concat_map. apply (flat_map_map_seq (fun x => x)). }
  rewrite E. apply (lane_flat nb (fun j => nth j bs [])); [|exact Hi]. intros x Hx. rewrite Forall_forall in HF. apply HF, nth_In, Hx.
Qed.
Lemma firstn_concat nb (bs : list (list Z)) K : Forall (fun b => length b = nb) bs -> firstn (K * nb) (concat bs) = concat (firstn K bs).
Proof.
  intros HF. revert K. induction HF as [|b bs Hb HF IH]; intros K; [destruct K; rewrite ?firstn_nil; reflexivity|].
  destruct K as [|K]; [reflexivity|]. cbn [concat firstn Nat.mul]. rewrite firstn_app, Hb. rewrite firstn_all2 by lia. f_equal.
  replace (nb + K * nb - nb) with (K * nb) by lia. apply IH.
Qed.
Lemma skipn_concat nb (bs : list (list Z)) K : Forall (fun b => length b = nb) bs -> skipn (K * nb) (concat bs) = concat (skipn K bs).
Proof.
  intros HF. revert K. induction HF as [|b bs Hb HF IH]; intros K; [destruct K; rewrite ?skipn_nil; reflexivity|].
  destruct K as [|K]; [reflexivity|]. cbn [concat skipn Nat.mul]. rewrite skipn_app, Hb. rewrite skipn_all2 by lia. cbn [app].
  replace (nb + K * nb - nb) with (K * nb) by lia. apply IH.
Qed.
Lemma Forall_fsk {A} (P : A -> Prop) l n m : Forall P l -> Forall P (firstn n (skipn m l)).
Proof.
  intros H. assert (H1 : Forall P (skipn m l)). { rewrite <- (firstn_skipn m l) in H. apply Forall_app in H. apply H. }
  rewrite <- (firstn_skipn n (skipn m l)) in H1. apply Forall_app in H1. apply H1.
Qed.
Lemma blocks_concat nb K (bs : list (list Z)) : Forall (fun b => length b = nb) bs -> length bs = K -> blocks nb K (concat bs) = bs.
Proof.
  intros HF HL. unfold blocks. rewrite <- HL. transitivity (map (fun i => nth i bs []) (seq 0 (length bs))).
  - apply map_ext_in. intros i Hi. apply in_seq in Hi. apply nth_chunk; [exact HF|lia].
  - clear. induction bs as [|b bs IH]; [reflexivity|]. cbn [length seq map nth]. f_equal. rewrite <- seq_shift, map_map. exact IH.
Qed.
Local Open Scope Z_scope.
Lemma load_ok nb K (a c : list Z) bs i : Forall (fun b => length b = nb) bs -> ((i + 1) * K <= length bs)%nat ->
  load nb K (a ++ concat bs ++ c) (zlen a) (Z.of_nat i) = Some (firstn K (skipn (i * K) bs)).
Proof.
  intros HF HL. unfold load, vbytes.
  assert (HC := concat_len nb bs HF).
  rewrite loadu_ok; [|unfold zlen; nia|nia|unfold zlen; rewrite !app_length; nia]. cbn [option_map]. f_equal.
  rewrite !Nat2Z.id. rewrite skipn_app. rewrite skipn_all2 by (unfold zlen; nia). cbn [app].
  replace (Z.to_nat (zlen a + Z.of_nat i * Z.of_nat (K * nb)) - length a)%nat with (i * K * nb)%nat by (unfold zlen; nia).
  rewrite skipn_app, (skipn_concat nb) by exact HF.
  rewrite firstn_app. assert (HF2 := Forall_fsk _ _ (length bs) (i * K) HF). rewrite firstn_all2 in HF2 by (rewrite skipn_length; lia).
  assert (HL2 := concat_len nb _ HF2). rewrite skipn_length in HL2.
  replace (K * nb - length (concat (skipn (i * K) bs)))%nat with 0%nat by nia. cbn [firstn]. rewrite app_nil_r.
  rewrite (firstn_concat nb) by exact HF2. apply blocks_concat; [apply Forall_fsk, HF|]. rewrite firstn_length, skipn_length. lia.
Qed.
Lemma load_none nb K mem p i : p < 0 /\ i = 0 \/ p + (i + 1) * Z.of_nat (K * nb) > zlen mem -> load nb K mem p i = None.
Proof.
  intros H. unfold load, loadu, vbytes. destruct (Z.leb_spec 0 (p + i * Z.of_nat (K * nb))); [|reflexivity].
  destruct (Z.leb_spec (p + i * Z.of_nat (K * nb) + Z.of_nat (K * nb)) (zlen mem)); [|reflexivity]. exfalso. destruct H as [[H ->]|H]; lia.
Qed.

(** consecutive stores *)
Fixpoint chain (mem : list Z) (off : Z) (ys : list (list Z)) : option (list Z) :=
  match ys with [] => Some mem | y :: ys => match storeu mem off y with Some m => chain m (off + zlen y) ys | None => None end end.
Lemma chain_ok ys : forall (a r c : list Z), length r = length (concat ys) -> chain (a ++ r ++ c) (zlen a) ys = Some (a ++ concat ys ++ c).
Proof.
  induction ys as [|y ys IH]; intros a r c H; cbn [chain concat] in *.
  - destruct r; [reflexivity|discriminate H].
  - rewrite app_length in H. rewrite <- (firstn_skipn (length y) r), <- app_assoc. rewrite (storeu_at a _ _ y); [|reflexivity|unfold zlen; rewrite firstn_length; lia].
    rewrite (app_assoc a y). replace (zlen a + zlen y) with (zlen (a ++ y)) by apply zlen_app.
    rewrite IH by (rewrite skipn_length; lia). rewrite <- !app_assoc. reflexivity.
Qed.

(** ** lifting the loads to all blocks *)
Definition okv (K nb : nat) (v : vec) : Prop := length v = K /\ Forall (fun b => length b = nb) v.
Definition len3 (nb : nat) (t : block * block * block) : Prop := length (p30 t) = nb /\ length (p31 t) = nb /\ length (p32 t) = nb.
Definition cat3 (t : block * block * block) : list Z := p30 t ++ p31 t ++ p32 t.
Definition len4 (nb : nat) (t : block * block * block * block) : Prop := length (p40 t) = nb /\ length (p41 t) = nb /\ length (p42 t) = nb /\ length (p43 t) = nb.
Definition cat4 (t : block * block * block * block) : list Z := p40 t ++ p41 t ++ p42 t ++ p43 t.
Definition ap3 {D} (f : block -> block -> block -> D) t := f (p30 t) (p31 t) (p32 t).
Definition ap4 {D} (f : block -> block -> block -> block -> D) t := f (p40 t) (p41 t) (p42 t) (p43 t).
Lemma nb_s s nb : okcfg s nb -> (nb / s * s = nb)%nat.
Proof. intros [[-> O]|[[-> O]|[[-> O]|[-> ->]]]]; repeat match goal with H : _ \/ _ |- _ => destruct H end; subst; reflexivity. Qed.
Lemma lift3 s nb ts : okcfg s nb -> Forall (len3 nb) ts ->
  concat (map p30 (map (ap3 (li3 s nb)) ts)) = deint s 3 0 (length ts * (nb / s)) (flat_map cat3 ts) /\
  concat (map p31 (map (ap3 (li3 s nb)) ts)) = deint s 3 1 (length ts * (nb / s)) (flat_map cat3 ts) /\
  concat (map p32 (map (ap3 (li3 s nb)) ts)) = deint s 3 2 (length ts * (nb / s)) (flat_map cat3 ts).
Proof.
  intros O HF. assert (ND := nb_s _ _ O). induction HF as [|t ts (L0 & L1 & L2) HF IH]; [split; [|split]; reflexivity|].
  destruct (li3_ok s nb _ _ _ O L0 L1 L2) as (E0 & E1 & E2). destruct IH as (I0 & I1 & I2).
  assert (LC : length (cat3 t) = (3 * (nb / s) * s)%nat) by (unfold cat3; rewrite !app_length, L0, L1, L2; nia).
  cbn [length map concat flat_map Nat.mul]. rewrite !deint_app by (first [lia|exact LC]). rewrite I0, I1, I2.
  unfold ap3. rewrite E0, E1, E2. split; [|split]; reflexivity.
Qed.
Lemma lift4 s nb ts : okcfg s nb -> Forall (len4 nb) ts ->
  concat (map p40 (map (ap4 (li4 s nb)) ts)) = deint s 4 0 (length ts * (nb / s)) (flat_map cat4 ts) /\
  concat (map p41 (map (ap4 (li4 s nb)) ts)) = deint s 4 1 (length ts * (nb / s)) (flat_map cat4 ts) /\
  concat (map p42 (map (ap4 (li4 s nb)) ts)) = deint s 4 2 (length ts * (nb / s)) (flat_map cat4 ts) /\
  concat (map p43 (map (ap4 (li4 s nb)) ts)) = deint s 4 3 (length ts * (nb / s)) (flat_map cat4 ts).
Proof.
  intros O HF. assert (ND := nb_s _ _ O). induction HF as [|t ts (L0 & L1 & L2 & L3) HF IH]; [split; [|split; [|split]]; reflexivity|].
  destruct (li4_ok s nb _ _ _ _ O L0 L1 L2 L3) as (E0 & E1 & E2 & E3). destruct IH as (I0 & I1 & I2 & I3).
  assert (LC : length (cat4 t) = (4 * (nb / s) * s)%nat) by (unfold cat4; rewrite !app_length, L0, L1, L2, L3; nia).
  cbn [length map concat flat_map Nat.mul]. rewrite !deint_app by (first [lia|exact LC]). rewrite I0, I1, I2, I3.
  unfold ap4. rewrite E0, E1, E2, E3. split; [|split; [|split]]; reflexivity.
Qed.
Lemma okv3 s nb ts : okcfg s nb -> Forall (len3 nb) ts ->
  okv (length ts) nb (map p30 (map (ap3 (li3 s nb)) ts)) /\ okv (length ts) nb (map p31 (map (ap3 (li3 s nb)) ts)) /\ okv (length ts) nb (map p32 (map (ap3 (li3 s nb)) ts)).
Proof.
  intros O HF. assert (ND := nb_s _ _ O). rewrite Forall_forall in HF.
  assert (G : forall t, In t ts -> length (p30 (ap3 (li3 s nb) t)) = nb /\ length (p31 (ap3 (li3 s nb) t)) = nb /\ length (p32 (ap3 (li3 s nb) t)) = nb).
  { intros t Ht. destruct (HF _ Ht) as (L0 & L1 & L2). destruct (li3_ok s nb _ _ _ O L0 L1 L2) as (E0 & E1 & E2). unfold ap3. rewrite E0, E1, E2.
    rewrite !deint_length by (rewrite ?app_length, ?L0, ?L1, ?L2; lia). lia. }
  unfold okv. rewrite !map_length. split; [|split]; (split; [reflexivity|]); rewrite map_map; apply Forall_map, Forall_forall; intros t Ht; apply (G t Ht).
Qed.
Lemma okv4 s nb ts : okcfg s nb -> Forall (len4 nb) ts ->
  okv (length ts) nb (map p40 (map (ap4 (li4 s nb)) ts)) /\ okv (length ts) nb (map p41 (map (ap4 (li4 s nb)) ts)) /\ okv (length ts) nb (map p42 (map (ap4 (li4 s nb)) ts)) /\ okv (length ts) nb (map p43 (map (ap4 (li4 s nb)) ts)).
Proof.
  intros O HF. assert (ND := nb_s _ _ O). rewrite Forall_forall in HF.
  assert (G : forall t, In t ts -> length (p40 (ap4 (li4 s nb) t)) = nb /\ length (p41 (ap4 (li4 s nb) t)) = nb /\ length (p42 (ap4 (li4 s nb) t)) = nb /\ length (p43 (ap4 (li4 s nb) t)) = nb).
  { intros t Ht. destruct (HF _ Ht) as (L0 & L1 & L2 & L3). destruct (li4_ok s nb _ _ _ _ O L0 L1 L2 L3) as (E0 & E1 & E2 & E3). unfold ap4. rewrite E0, E1, E2, E3.
    rewrite !deint_length by (rewrite ?app_length, ?L0, ?L1, ?L2, ?L3; lia). lia. }
  unfold okv. rewrite !map_length. split; [|split; [|split]]; (split; [reflexivity|]); rewrite map_map; apply Forall_map, Forall_forall; intros t Ht; apply (G t Ht).
Qed.
Definition okK (nb K : nat) : Prop := K = 1%nat \/ nb = 16%nat /\ (K = 2%nat \/ K = 4%nat).
Lemma s_pos s nb : okcfg s nb -> (1 <= s < nb)%nat.
Proof. unfold okcfg. lia. Qed.
Lemma not_single s nb K : okcfg s nb -> ((K =? 1) && (nb =? s))%nat = false.
Proof. intros O. apply s_pos in O. destruct (Nat.eqb_spec nb s); [lia|]. apply andb_false_r. Qed.
Ltac ldall := repeat match goal with |- context[load ?nb ?K (?a ++ concat ?bs ++ ?c) (zlen ?a) ?i] => 
   let j := eval compute in (Z.to_nat i) in change (load nb K (a ++ concat bs ++ c) (zlen a) i) with (load nb K (a ++ concat bs ++ c) (zlen a) (Z.of_nat j)); rewrite (load_ok nb K a c bs j) by (first [assumption|cbn [length]; lia]) end.
Ltac invF := repeat match goal with H : Forall _ (_ :: _) |- _ => inversion H; clear H; subst | H : Forall _ [] |- _ => clear H end.
Ltac explbs n bs := match goal with H : length bs = _ |- _ => simpl in H; expl n bs H end.
Lemma load3_main s nb K (a r c : list Z) : okcfg s nb -> okK nb K -> length r = (3 * (K * nb))%nat ->
  exists v0 v1 v2, load_interleaved3 s nb K (a ++ r ++ c) (zlen a) = Some [v0; v1; v2] /\
    concat v0 = deint s 3 0 (K * (nb / s)) r /\ concat v1 = deint s 3 1 (K * (nb / s)) r /\ concat v2 = deint s 3 2 (K * (nb / s)) r /\
    okv K nb v0 /\ okv K nb v1 /\ okv K nb v2.
Proof.
  intros O OK HL. destruct (chunks (3 * K) nb r) as (bs & HB & HF & <-); [lia|]. clear HL.
  unfold load_interleaved3. rewrite not_single by exact O. unfold load_transposed3.
  assert (L := fun i => load_ok nb K a c bs i HF). rewrite HB in L.
  change 0 with (Z.of_nat 0). change 1 with (Z.of_nat 1). change 2 with (Z.of_nat 2). rewrite !L by lia.
  assert (exists ts, length ts = K /\ Forall (len3 nb) ts /\ concat bs = flat_map cat3 ts /\
    (let '(A, B, C) := (if (K =? 1)%nat then (firstn K (skipn (0 * K) bs), firstn K (skipn (1 * K) bs), firstn K (skipn (2 * K) bs))
      else if (K =? 2)%nat then (concat_ul (firstn K (skipn (1 * K) bs)) (firstn K (skipn (0 * K) bs)), concat_lu (firstn K (skipn (2 * K) bs)) (firstn K (skipn (0 * K) bs)), concat_ul (firstn K (skipn (2 * K) bs)) (firstn K (skipn (1 * K) bs)))
      else let v5421 := shuffle128 1 0 2 1 (firstn K (skipn (0 * K) bs)) (firstn K (skipn (1 * K) bs)) in
           let va976 := shuffle128 2 1 3 2 (firstn K (skipn (1 * K) bs)) (firstn K (skipn (2 * K) bs)) in
           (shuffle128 2 0 3 0 (firstn K (skipn (0 * K) bs)) va976, shuffle128 3 1 2 0 v5421 va976, shuffle128 3 0 3 1 v5421 (firstn K (skipn (2 * K) bs)))) in
     map3 (li3 s nb) A B C = map (ap3 (li3 s nb)) ts)) as (ts & HT & HFT & HC & HM).
  { destruct OK as [->|[-> [->| ->]]]; simpl in HB.
    - destruct bs as [|b0 [|b1 [|b2 [|]]]]; try discriminate HB. exists [(b0, b1, b2)]. invF.
      split; [reflexivity|]. split; [constructor; [repeat split; assumption|constructor]|]. split; [cbn [concat flat_map cat3 p30 p31 p32 fst snd]; rewrite ?app_nil_r, <- ?app_assoc; reflexivity|reflexivity].
    - destruct bs as [|b0 [|b1 [|b2 [|b3 [|b4 [|b5 [|]]]]]]]; try discriminate HB. exists [(b0, b1, b2); (b3, b4, b5)]. invF.
      split; [reflexivity|]. split; [repeat constructor; assumption|]. split; [unfold cat3, p30, p31, p32; cbn [concat flat_map fst snd]; rewrite ?app_nil_r, <- ?app_assoc; reflexivity|reflexivity].
    - destruct bs as [|b0 [|b1 [|b2 [|b3 [|b4 [|b5 [|b6 [|b7 [|b8 [|b9 [|b10 [|b11 [|]]]]]]]]]]]]]; try discriminate HB. exists [(b0, b1, b2); (b3, b4, b5); (b6, b7, b8); (b9, b10, b11)]. invF.
      split; [reflexivity|]. split; [repeat constructor; assumption|]. split; [unfold cat3, p30, p31, p32; cbn [concat flat_map fst snd]; rewrite ?app_nil_r, <- ?app_assoc; reflexivity|reflexivity]. }
  destruct (lift3 s nb ts O HFT) as (E0 & E1 & E2). rewrite HT in E0, E1, E2. rewrite HC.
  destruct (if (K =? 1)%nat then _ else _) as [[A B] C]. rewrite HM. do 3 eexists. split; [reflexivity|]. assert (V := okv3 s nb ts O HFT). rewrite HT in V. split; [exact E0|split; [exact E1|split; [exact E2|exact V]]].
Qed.
Lemma load4_main s nb K (a r c : list Z) : okcfg s nb -> okK nb K -> length r = (4 * (K * nb))%nat ->
  exists v0 v1 v2 v3, load_interleaved4 s nb K (a ++ r ++ c) (zlen a) = Some [v0; v1; v2; v3] /\
    concat v0 = deint s 4 0 (K * (nb / s)) r /\ concat v1 = deint s 4 1 (K * (nb / s)) r /\ concat v2 = deint s 4 2 (K * (nb / s)) r /\ concat v3 = deint s 4 3 (K * (nb / s)) r /\
    okv K nb v0 /\ okv K nb v1 /\ okv K nb v2 /\ okv K nb v3.
Proof.
  intros O OK HL. destruct (chunks (4 * K) nb r) as (bs & HB & HF & <-); [lia|]. clear HL.
  unfold load_interleaved4. rewrite not_single by exact O. unfold load_transposed4.
  assert (L := fun i => load_ok nb K a c bs i HF). rewrite HB in L.
  change 0 with (Z.of_nat 0). change 1 with (Z.of_nat 1). change 2 with (Z.of_nat 2). change 3 with (Z.of_nat 3). rewrite !L by lia. cbv beta iota.
  match goal with |- context[(if (K =? 1)%nat then ?e1 else ?e2)] => let e := constr:(if (K =? 1)%nat then e1 else e2) in assert (exists ts, length ts = K /\ Forall (len4 nb) ts /\ concat bs = flat_map cat4 ts /\
     (let '(A, B, C, D) := e in map4 (li4 s nb) A B C D = map (ap4 (li4 s nb)) ts)) as (ts & HT & HFT & HC & HM) end.
  { destruct OK as [->|[-> [->| ->]]]; simpl in HB.
    - destruct bs as [|b0 [|b1 [|b2 [|b3 [|]]]]]; try discriminate HB. exists [(b0, b1, b2, b3)]. invF.
      split; [reflexivity|]. split; [repeat constructor; assumption|]. split; [unfold cat4, p40, p41, p42, p43; cbn [concat flat_map fst snd]; rewrite ?app_nil_r, <- ?app_assoc; reflexivity|reflexivity].
    - destruct bs as [|b0 [|b1 [|b2 [|b3 [|b4 [|b5 [|b6 [|b7 [|]]]]]]]]]; try discriminate HB. exists [(b0, b1, b2, b3); (b4, b5, b6, b7)]. invF.
      split; [reflexivity|]. split; [repeat constructor; assumption|]. split; [unfold cat4, p40, p41, p42, p43; cbn [concat flat_map fst snd]; rewrite ?app_nil_r, <- ?app_assoc; reflexivity|reflexivity].
    - destruct bs as [|b0 [|b1 [|b2 [|b3 [|b4 [|b5 [|b6 [|b7 [|b8 [|b9 [|b10 [|b11 [|b12 [|b13 [|b14 [|b15 [|]]]]]]]]]]]]]]]]]; try discriminate HB. exists [(b0, b1, b2, b3); (b4, b5, b6, b7); (b8, b9, b10, b11); (b12, b13, b14, b15)]. invF.
      split; [reflexivity|]. split; [repeat constructor; assumption|]. split; [unfold cat4, p40, p41, p42, p43; cbn [concat flat_map fst snd]; rewrite ?app_nil_r, <- ?app_assoc; reflexivity|reflexivity]. }
  destruct (lift4 s nb ts O HFT) as (E0 & E1 & E2 & E3). rewrite HT in E0, E1, E2, E3. rewrite HC.
  destruct (if (K =? 1)%nat then _ else _) as [[[A B] C] D]. rewrite HM. do 4 eexists. split; [reflexivity|]. assert (V := okv4 s nb ts O HFT). rewrite HT in V. split; [exact E0|split; [exact E1|split; [exact E2|split; [exact E3|exact V]]]].
Qed.
Lemma concat_blocks nb K (l : list Z) : length l = (K * nb)%nat -> concat (blocks nb K l) = l.
Proof. intros H. destruct (chunks K nb l H) as (bs & HB & HF & <-). rewrite blocks_concat by assumption. reflexivity. Qed.
Lemma okv_blocks nb K (l : list Z) : length l = (K * nb)%nat -> okv K nb (blocks nb K l).
Proof. intros H. destruct (chunks K nb l H) as (bs & HB & HF & <-). rewrite blocks_concat by assumption. split; assumption. Qed.
Lemma load2_main s nb K (a r c : list Z) : okcfg s nb -> okK nb K -> length r = (2 * (K * nb))%nat ->
  exists v0 v1, load_interleaved2 s nb K (a ++ r ++ c) (zlen a) = Some [v0; v1] /\
    concat v0 = deint s 2 0 (K * (nb / s)) r /\ concat v1 = deint s 2 1 (K * (nb / s)) r /\ okv K nb v0 /\ okv K nb v1.
Proof.
  intros O OK HL. destruct (chunks (2 * K) nb r) as (bs & HB & HF & <-); [lia|].
  unfold load_interleaved2. rewrite not_single by exact O.
  assert (L := fun i => load_ok nb K a c bs i HF). rewrite HB in L.
  change 0 with (Z.of_nat 0). change 1 with (Z.of_nat 1). rewrite !L by lia. cbv beta iota.
  cbn [Nat.mul skipn]. rewrite Nat.add_0_r. rewrite (firstn_all2 (n := K) (skipn K bs)) by (rewrite skipn_length; lia).
  do 2 eexists. split; [reflexivity|]. assert (ND := nb_s _ _ O). assert (SP := s_pos _ _ O).
  assert (LA : length (concat (firstn K bs)) = (K * nb)%nat) by (rewrite (concat_len nb), firstn_length; [nia|apply (Forall_fsk _ _ K 0 HF)]).
  assert (LN : (length (concat (firstn K bs)) / s)%nat = (K * (nb / s))%nat) by (rewrite LA, <- ND, Nat.mul_assoc, !Nat.div_mul; lia).
  assert (CP : forall par, (par < 2)%nat -> concat (concat_parity s nb K par (skipn K bs) (firstn K bs)) = deint s 2 par (K * (nb / s)) (concat bs)).
  { intros par Hp. unfold concat_parity. rewrite LN. rewrite <- concat_app, firstn_skipn. fold (deint s 2 par (K * (nb / s)) (concat bs)).
    apply concat_blocks. rewrite deint_length; [nia|exact Hp|]. rewrite HL. nia. }
  assert (VP : forall par, (par < 2)%nat -> okv K nb (concat_parity s nb K par (skipn K bs) (firstn K bs))).
  { intros par Hp. unfold concat_parity. rewrite LN. rewrite <- concat_app, firstn_skipn. fold (deint s 2 par (K * (nb / s)) (concat bs)).
    apply okv_blocks. rewrite deint_length; [nia|exact Hp|]. rewrite HL. nia. }
  split; [apply CP; lia|]. split; [apply CP; lia|]. split; apply VP; lia.
Qed.
(** one lane per vector *)
Lemma loadu_at3 (a x c : list Z) off n : off = zlen a -> n = zlen x -> loadu (a ++ x ++ c) off n = Some x.
Proof.
  intros -> ->. rewrite loadu_app by (rewrite zlen_app; pose proof (zlen_nonneg x); pose proof (zlen_nonneg c); lia). f_equal. unfold zlen. rewrite Nat2Z.id.
  rewrite firstn_app, Nat.sub_diag, firstn_all. cbn [firstn]. apply app_nil_r.
Qed.
Lemma loadu_piece s (a r c : list Z) i n : (0 < s)%nat -> ((i + 1) * s <= length r)%nat -> n = Z.of_nat i * Z.of_nat s -> loadu (a ++ r ++ c) (zlen a + n) (Z.of_nat s) = Some (lane s i r).
Proof.
  intros HS HL ->. rewrite <- (firstn_skipn (i * s) r) at 1. rewrite <- (firstn_skipn s (skipn (i * s) r)) at 1.
  rewrite <- !app_assoc. rewrite (app_assoc a). apply loadu_at3.
  - rewrite zlen_app. unfold zlen. rewrite firstn_length. nia.
  - unfold zlen. rewrite lane_length; lia.
Qed.
Lemma single_load s (a r c : list Z) : (0 < s)%nat ->
  (length r = (2 * s)%nat -> load_interleaved2 s s 1 (a ++ r ++ c) (zlen a) = Some [[lane s 0 r]; [lane s 1 r]]) /\
  (length r = (3 * s)%nat -> load_interleaved3 s s 1 (a ++ r ++ c) (zlen a) = Some [[lane s 0 r]; [lane s 1 r]; [lane s 2 r]]) /\
  (length r = (4 * s)%nat -> load_interleaved4 s s 1 (a ++ r ++ c) (zlen a) = Some [[lane s 0 r]; [lane s 1 r]; [lane s 2 r]; [lane s 3 r]]).
Proof.
  intros HS. unfold load_interleaved2, load_interleaved3, load_interleaved4. rewrite (Nat.eqb_refl s). cbn [Nat.eqb andb].
  split; [|split]; intros HL.
  - replace (loadu (a ++ r ++ c) (zlen a) (Z.of_nat s)) with (Some (lane s 0 r)) by (symmetry; rewrite <- (Z.add_0_r (zlen a)); apply loadu_piece; lia).
    rewrite (loadu_piece s a r c 1) by lia. reflexivity.
  - replace (loadu (a ++ r ++ c) (zlen a) (Z.of_nat s)) with (Some (lane s 0 r)) by (symmetry; rewrite <- (Z.add_0_r (zlen a)); apply loadu_piece; lia).
    rewrite (loadu_piece s a r c 1), (loadu_piece s a r c 2) by lia. reflexivity.
  - replace (loadu (a ++ r ++ c) (zlen a) (Z.of_nat s)) with (Some (lane s 0 r)) by (symmetry; rewrite <- (Z.add_0_r (zlen a)); apply loadu_piece; lia).
    rewrite (loadu_piece s a r c 1), (loadu_piece s a r c 2), (loadu_piece s a r c 3) by lia. reflexivity.
Qed.
(** out of bounds *)
Lemma loadu_none (mem : list Z) off n : off < 0 \/ off + n > zlen mem -> loadu mem off n = None.
Proof. intros H. unfold loadu. destruct (Z.leb_spec 0 off); [|reflexivity]. destruct (Z.leb_spec (off + n) (zlen mem)); [|reflexivity]. exfalso. lia. Qed.
Lemma load2_none s nb K mem p : p < 0 \/ p + 2 * Z.of_nat (K * nb) > zlen mem -> load_interleaved2 s nb K mem p = None.
Proof.
  intros H. unfold load_interleaved2. destruct ((K =? 1)%nat && (nb =? s)%nat) eqn:E.
  - apply andb_true_iff in E. destruct E as [E1 E2]. apply Nat.eqb_eq in E1, E2. subst. destruct H.
    + rewrite loadu_none by lia. reflexivity.
    + rewrite (loadu_none mem (p + Z.of_nat s)) by lia. destruct (loadu _ _ _); reflexivity.
  - destruct H; [rewrite load_none by lia; reflexivity|]. rewrite (load_none nb K mem p 1) by lia. destruct (load _ _ _ _ _); reflexivity.
Qed.
Lemma load3_none s nb K mem p : p < 0 \/ p + 3 * Z.of_nat (K * nb) > zlen mem -> load_interleaved3 s nb K mem p = None.
Proof.
  intros H. unfold load_interleaved3, load_transposed3. destruct ((K =? 1)%nat && (nb =? s)%nat) eqn:E.
  - apply andb_true_iff in E. destruct E as [E1 E2]. apply Nat.eqb_eq in E1, E2. subst. destruct H.
    + rewrite loadu_none by lia. reflexivity.
    + rewrite (loadu_none mem (p + 2 * Z.of_nat s)) by lia. repeat (destruct (loadu _ _ _); [|reflexivity]). reflexivity.
  - destruct H; [rewrite load_none by lia; reflexivity|]. rewrite (load_none nb K mem p 2) by lia. do 2 (destruct (load _ _ _ _ _); [|reflexivity]). reflexivity.
Qed.
Lemma load4_none s nb K mem p : p < 0 \/ p + 4 * Z.of_nat (K * nb) > zlen mem -> load_interleaved4 s nb K mem p = None.
Proof.
  intros H. unfold load_interleaved4, load_transposed4. destruct ((K =? 1)%nat && (nb =? s)%nat) eqn:E.
  - apply andb_true_iff in E. destruct E as [E1 E2]. apply Nat.eqb_eq in E1, E2. subst. destruct H.
    + rewrite loadu_none by lia. reflexivity.
    + rewrite (loadu_none mem (p + 3 * Z.of_nat s)) by lia. repeat (destruct (loadu _ _ _); [|reflexivity]). reflexivity.
  - destruct H; [rewrite load_none by lia; reflexivity|]. rewrite (load_none nb K mem p 3) by lia. do 3 (destruct (load _ _ _ _ _); [|reflexivity]). reflexivity.
Qed.

(** ** lifting the stores *)
Lemma inter_nil s vs : Forall (fun v => v = []) vs -> forall N, N = 0%nat -> inter s N vs = [].
Proof. intros _ N ->. reflexivity. Qed.
Lemma lift_si3 s ts : full16 s -> Forall (len3 16) ts ->
  flat_map cat3 (map (ap3 (si3 s)) ts) = inter s (length ts * (16 / s)) [concat (map p30 ts); concat (map p31 ts); concat (map p32 ts)] /\
  Forall (len3 16) (map (ap3 (si3 s)) ts).
Proof.
  intros O HF. assert (ND : (16 / s * s = 16)%nat) by (destruct O as [->|[->|[->| ->]]]; reflexivity).
  induction HF as [|t ts (L0 & L1 & L2) HF [IH1 IH2]]; [split; [reflexivity|constructor]|].
  destruct (si3_ok s _ _ _ O L0 L1 L2) as (E & N0 & N1 & N2). cbn [map flat_map concat length Nat.mul]. split; [|constructor; [repeat split; assumption|exact IH2]].
  rewrite IH1. unfold cat3, ap3. rewrite E.
  symmetry. apply (inter_app s (16 / s) (length ts * (16 / s)) [(p30 t, concat (map p30 ts)); (p31 t, concat (map p31 ts)); (p32 t, concat (map p32 ts))]).
  repeat constructor; cbn [fst]; lia.
Qed.
Lemma lift_si4 s ts : full16 s -> Forall (len4 16) ts ->
  flat_map cat4 (map (ap4 (si4 s)) ts) = inter s (length ts * (16 / s)) [concat (map p40 ts); concat (map p41 ts); concat (map p42 ts); concat (map p43 ts)] /\
  Forall (len4 16) (map (ap4 (si4 s)) ts).
Proof.
  intros O HF. assert (ND : (16 / s * s = 16)%nat) by (destruct O as [->|[->|[->| ->]]]; reflexivity).
  induction HF as [|t ts (L0 & L1 & L2 & L3) HF [IH1 IH2]]; [split; [reflexivity|constructor]|].
  destruct (si4_ok s _ _ _ _ O L0 L1 L2 L3) as (E & N0 & N1 & N2 & N3). cbn [map flat_map concat length Nat.mul]. split; [|constructor; [repeat split; assumption|exact IH2]].
  rewrite IH1. unfold cat4, ap4. rewrite E.
  symmetry. apply (inter_app s (16 / s) (length ts * (16 / s)) [(p40 t, concat (map p40 ts)); (p41 t, concat (map p41 ts)); (p42 t, concat (map p42 ts)); (p43 t, concat (map p43 ts))]).
  repeat constructor; cbn [fst]; lia.
Qed.

Lemma chain2 mem p V o0 o1 : zlen o0 = V ->
  (match storeu mem (p + 0 * V) o0 with Some m => storeu m (p + 1 * V) o1 | None => None end) = chain mem p [o0; o1].
Proof.
  intros H0. cbn [chain]. replace (p + 0 * V) with p by lia. destruct (storeu mem p o0) as [m|]; [|reflexivity]. replace (p + zlen o0) with (p + 1 * V) by lia. destruct (storeu m _ o1); reflexivity.
Qed.
Lemma chain3 mem p V o0 o1 o2 : zlen o0 = V -> zlen o1 = V ->
  (match storeu mem (p + 0 * V) o0 with Some m => match storeu m (p + 1 * V) o1 with Some m => storeu m (p + 2 * V) o2 | None => None end | None => None end) = chain mem p [o0; o1; o2].
Proof.
  intros H0 H1. cbn [chain]. replace (p + 0 * V) with p by lia. destruct (storeu mem p o0) as [m|]; [|reflexivity]. replace (p + zlen o0) with (p + 1 * V) by lia. destruct (storeu m _ o1) as [m'|]; [|reflexivity].
  replace (p + 1 * V + zlen o1) with (p + 2 * V) by lia. destruct (storeu m' _ o2); reflexivity.
Qed.
Lemma chain4 mem p V o0 o1 o2 o3 : zlen o0 = V -> zlen o1 = V -> zlen o2 = V ->
  (match storeu mem (p + 0 * V) o0 with Some m => match storeu m (p + 1 * V) o1 with Some m => match storeu m (p + 2 * V) o2 with Some m => storeu m (p + 3 * V) o3 | None => None end | None => None end | None => None end) = chain mem p [o0; o1; o2; o3].
Proof.
  intros H0 H1 H2. cbn [chain]. replace (p + 0 * V) with p by lia. destruct (storeu mem p o0) as [m|]; [|reflexivity]. replace (p + zlen o0) with (p + 1 * V) by lia. destruct (storeu m _ o1) as [m'|]; [|reflexivity].
  replace (p + 1 * V + zlen o1) with (p + 2 * V) by lia. destruct (storeu m' _ o2) as [m''|]; [|reflexivity]. replace (p + 2 * V + zlen o2) with (p + 3 * V) by lia. destruct (storeu m'' _ o3); reflexivity.
Qed.
Ltac lens := unfold zlen, vbytes; cbn [concat]; rewrite ?app_length; cbn [length]; repeat match goal with H : length _ = 16%nat |- _ => rewrite H; clear H end; reflexivity.
Ltac lenN := rewrite ?app_length; cbn [length]; repeat match goal with H : length _ = 16%nat |- _ => rewrite H; clear H end; reflexivity.
Ltac asc := cbn [concat flat_map]; rewrite ?app_nil_r, <- ?app_assoc; reflexivity.
Definition okK16 (K : nat) : Prop := K = 1%nat \/ K = 2%nat \/ K = 4%nat.
Lemma st3_ok K us (a r c : list Z) : okK16 K -> length us = K -> Forall (len3 16) us -> length r = (3 * (K * 16))%nat ->
  store_transposed3 16 K (a ++ r ++ c) (zlen a) (map p30 us) (map p31 us) (map p32 us) = Some (a ++ flat_map cat3 us ++ c).
Proof.
  intros OK HU HF HL. unfold store_transposed3, store. destruct OK as [->|[->| ->]].
  - destruct us as [|[[x0 y0] z0] [|]]; try discriminate HU. invF. unfold len3, cat3 in *. unfold p30, p31, p32 in *. cbn [map fst snd flat_map Nat.eqb] in *.
    repeat match goal with H : _ /\ _ |- _ => destruct H end.
    rewrite chain3 by lens. rewrite chain_ok by (rewrite HL; cbn [concat]; lenN). do 2 f_equal. asc.
  - destruct us as [|[[x0 y0] z0] [|[[x1 y1] z1] [|]]]; try discriminate HU. invF. unfold len3, cat3 in *. unfold p30, p31, p32, concat_ll, concat_ul, concat_uu, blk in *. cbn [map fst snd flat_map Nat.eqb nth] in *.
    repeat match goal with H : _ /\ _ |- _ => destruct H end.
    rewrite chain3 by lens. rewrite chain_ok by (rewrite HL; cbn [concat]; lenN). do 2 f_equal. asc.
  - destruct us as [|[[x0 y0] z0] [|[[x1 y1] z1] [|[[x2 y2] z2] [|[[x3 y3] z3] [|]]]]]; try discriminate HU. invF. unfold len3, cat3 in *. unfold p30, p31, p32, shuffle128, blk in *. cbn [map fst snd flat_map Nat.eqb nth] in *.
    repeat match goal with H : _ /\ _ |- _ => destruct H end.
    rewrite chain3 by lens. rewrite chain_ok by (rewrite HL; cbn [concat]; lenN). do 2 f_equal. asc.
Qed.
Lemma st4_ok K us (a r c : list Z) : okK16 K -> length us = K -> Forall (len4 16) us -> length r = (4 * (K * 16))%nat ->
  store_transposed4 16 K (a ++ r ++ c) (zlen a) (map p40 us) (map p41 us) (map p42 us) (map p43 us) = Some (a ++ flat_map cat4 us ++ c).
Proof.
  intros OK HU HF HL. unfold store_transposed4, store. destruct OK as [->|[->| ->]].
  - destruct us as [|[[[x0 y0] z0] w0] [|]]; try discriminate HU. invF. unfold len4, cat4 in *. unfold p40, p41, p42, p43 in *. cbn [map fst snd flat_map Nat.eqb] in *.
    repeat match goal with H : _ /\ _ |- _ => destruct H end.
    rewrite chain4 by lens. rewrite chain_ok by (rewrite HL; cbn [concat]; lenN). do 2 f_equal. asc.
  - destruct us as [|[[[x0 y0] z0] w0] [|[[[x1 y1] z1] w1] [|]]]; try discriminate HU. invF. unfold len4, cat4 in *. unfold p40, p41, p42, p43, concat_ll, concat_uu, blk in *. cbn [map fst snd flat_map Nat.eqb nth] in *.
    repeat match goal with H : _ /\ _ |- _ => destruct H end.
    rewrite chain4 by lens. rewrite chain_ok by (rewrite HL; cbn [concat]; lenN). do 2 f_equal. asc.
  - destruct us as [|[[[x0 y0] z0] w0] [|[[[x1 y1] z1] w1] [|[[[x2 y2] z2] w2] [|[[[x3 y3] z3] w3] [|]]]]]; try discriminate HU. invF. unfold len4, cat4 in *. unfold p40, p41, p42, p43, shuffle128, blk in *. cbn [map fst snd flat_map Nat.eqb nth] in *.
    repeat match goal with H : _ /\ _ |- _ => destruct H end.
    rewrite chain4 by lens. rewrite chain_ok by (rewrite HL; cbn [concat]; lenN). do 2 f_equal. asc.
Qed.
Definition len2 (nb : nat) (t : block * block) : Prop := length (fst t) = nb /\ length (snd t) = nb.
Definition cat2 (t : block * block) : list Z := fst t ++ snd t.
Lemma st2_ok K us (a r c : list Z) : okK16 K -> length us = K -> Forall (len2 16) us -> length r = (2 * (K * 16))%nat ->
  store_transposed2 16 K (a ++ r ++ c) (zlen a) (map fst us) (map snd us) = Some (a ++ flat_map cat2 us ++ c).
Proof.
  intros OK HU HF HL. unfold store_transposed2, store. destruct OK as [->|[->| ->]].
  - destruct us as [|[x0 y0] [|]]; try discriminate HU. invF. unfold len2, cat2 in *. cbn [map fst snd flat_map Nat.eqb] in *.
    repeat match goal with H : _ /\ _ |- _ => destruct H end.
    rewrite chain2 by lens. rewrite chain_ok by (rewrite HL; cbn [concat]; lenN). do 2 f_equal. asc.
  - destruct us as [|[x0 y0] [|[x1 y1] [|]]]; try discriminate HU. invF. unfold len2, cat2 in *. unfold concat_ll, concat_uu, blk in *. cbn [map fst snd flat_map Nat.eqb nth] in *.
    repeat match goal with H : _ /\ _ |- _ => destruct H end.
    rewrite chain2 by lens. rewrite chain_ok by (rewrite HL; cbn [concat]; lenN). do 2 f_equal. asc.
  - destruct us as [|[x0 y0] [|[x1 y1] [|[x2 y2] [|[x3 y3] [|]]]]]; try discriminate HU. invF. unfold len2, cat2 in *. unfold shuffle128, blk in *. cbn [map fst snd flat_map Nat.eqb nth] in *.
    repeat match goal with H : _ /\ _ |- _ => destruct H end.
    rewrite chain2 by lens. rewrite chain_ok by (rewrite HL; cbn [concat]; lenN). do 2 f_equal. asc.
Qed.
Lemma lift_si2 s (ts : list (block * block)) : full16 s -> Forall (len2 16) ts ->
  flat_map cat2 (map (fun x => (interleave_lower s (fst x) (snd x), interleave_upper s (fst x) (snd x))) ts) = inter s (length ts * (16 / s)) [concat (map fst ts); concat (map snd ts)] /\
  Forall (len2 16) (map (fun x => (interleave_lower s (fst x) (snd x), interleave_upper s (fst x) (snd x))) ts).
Proof.
  intros O HF. assert (ND : (16 / s * s = 16)%nat) by (destruct O as [->|[->|[->| ->]]]; reflexivity).
  induction HF as [|t ts (L0 & L1) HF [IH1 IH2]]; [split; [reflexivity|constructor]|].
  assert (E := si2_ok s _ _ O L0 L1). cbn [map flat_map concat length Nat.mul]. split.
  - rewrite IH1. unfold cat2 at 1. cbn [fst snd]. rewrite E.
    symmetry. apply (inter_app s (16 / s) (length ts * (16 / s)) [(fst t, concat (map fst ts)); (snd t, concat (map snd ts))]).
    repeat constructor; cbn [fst]; lia.
  - constructor; [|exact IH2]. clear - O L0 L1. destruct t as [x y]. unfold len2. cbn [fst snd] in *. expl 16 x L0; expl 16 y L1. destruct O as [->|[->|[->| ->]]]; split; reflexivity.
Qed.
Lemma combine_split2 (v0 v1 : vec) : length v0 = length v1 -> map fst (combine v0 v1) = v0 /\ map snd (combine v0 v1) = v1.
Proof.
  revert v1. induction v0 as [|x v0 IH]; intros [|y v1] H; try discriminate H; [split; reflexivity|]. cbn [combine map fst snd]. injection H as H. destruct (IH _ H) as [E1 E2]. rewrite E1, E2. split; reflexivity.
Qed.
Lemma zip3 K nb v0 v1 v2 : okv K nb v0 -> okv K nb v1 -> okv K nb v2 ->
  exists ts, length ts = K /\ Forall (len3 nb) ts /\ v0 = map p30 ts /\ v1 = map p31 ts /\ v2 = map p32 ts /\ forall D (f : _ -> _ -> _ -> D), map3 f v0 v1 v2 = map (ap3 f) ts.
Proof.
  intros [L0 F0] [L1 F1] [L2 F2]. revert v0 v1 v2 L0 F0 L1 F1 L2 F2. induction K as [|K IH]; intros v0 v1 v2 L0 F0 L1 F1 L2 F2.
  - destruct v0, v1, v2; try discriminate. exists []. repeat split. constructor.
  - destruct v0 as [|x v0], v1 as [|y v1], v2 as [|z v2]; try discriminate. injection L0 as L0. injection L1 as L1. injection L2 as L2.
    inversion F0; subst. inversion F1; subst. inversion F2; subst.
    destruct (IH v0 v1 v2) as (ts & HT & HF & -> & -> & -> & HM); try assumption; try reflexivity.
    exists ((x, y, z) :: ts). cbn [length map]. split; [lia|]. split; [constructor; [repeat split; cbn; congruence|exact HF]|]. split; [reflexivity|]. split; [reflexivity|]. split; [reflexivity|].
    intros D f. cbn [map3]. rewrite HM. reflexivity.
Qed.
Lemma zip4 K nb v0 v1 v2 v3 : okv K nb v0 -> okv K nb v1 -> okv K nb v2 -> okv K nb v3 ->
  exists ts, length ts = K /\ Forall (len4 nb) ts /\ v0 = map p40 ts /\ v1 = map p41 ts /\ v2 = map p42 ts /\ v3 = map p43 ts /\ forall D (f : _ -> _ -> _ -> _ -> D), map4 f v0 v1 v2 v3 = map (ap4 f) ts.
Proof.
  intros [L0 F0] [L1 F1] [L2 F2] [L3 F3]. revert v0 v1 v2 v3 L0 F0 L1 F1 L2 F2 L3 F3. induction K as [|K IH]; intros v0 v1 v2 v3 L0 F0 L1 F1 L2 F2 L3 F3.
  - destruct v0, v1, v2, v3; try discriminate. exists []. repeat split. constructor.
  - destruct v0 as [|x v0], v1 as [|y v1], v2 as [|z v2], v3 as [|w v3]; try discriminate. injection L0 as L0. injection L1 as L1. injection L2 as L2. injection L3 as L3.
    inversion F0; subst. inversion F1; subst. inversion F2; subst. inversion F3; subst.
    destruct (IH v0 v1 v2 v3) as (ts & HT & HF & -> & -> & -> & -> & HM); try assumption; try reflexivity.
    exists ((x, y, z, w) :: ts). cbn [length map]. split; [lia|]. split; [constructor; [repeat split; cbn; congruence|exact HF]|]. split; [reflexivity|]. split; [reflexivity|]. split; [reflexivity|]. split; [reflexivity|].
    intros D f. cbn [map4]. rewrite HM. reflexivity.
Qed.
Lemma store2_full s K (v0 v1 : vec) (a r c : list Z) : full16 s -> okK16 K -> okv K 16 v0 -> okv K 16 v1 -> length r = (2 * (K * 16))%nat ->
  store_interleaved2 s 16 K (a ++ r ++ c) (zlen a) v0 v1 = Some (a ++ inter s (K * (16 / s)) [concat v0; concat v1] ++ c).
Proof.
  intros O OK [L0 F0] [L1 F1] HL. unfold store_interleaved2. cbn [Nat.eqb].
  destruct (combine_split2 v0 v1) as [E0 E1]; [lia|]. set (ts := combine v0 v1) in *.
  assert (HT : length ts = K) by (rewrite <- L0, <- E0; symmetry; apply map_length).
  assert (HF : Forall (len2 16) ts).
  { apply Forall_forall. intros [x y] Hx. rewrite Forall_forall in F0, F1. split; cbn [fst snd]; [apply F0; apply (in_combine_l v0 v1 x y Hx)|apply F1; apply (in_combine_r v0 v1 x y Hx)]. }
  destruct (lift_si2 s ts O HF) as [EI FI].
  set (us := map (fun x => (interleave_lower s (fst x) (snd x), interleave_upper s (fst x) (snd x))) ts) in *.
  replace (map (fun x => interleave_lower s (fst x) (snd x)) ts) with (map fst us) by (unfold us; rewrite map_map; reflexivity).
  replace (map (fun x => interleave_upper s (fst x) (snd x)) ts) with (map snd us) by (unfold us; rewrite map_map; reflexivity).
  rewrite st2_ok; [|exact OK|unfold us; rewrite map_length; exact HT|exact FI|exact HL]. rewrite EI, HT, E0, E1. reflexivity.
Qed.
Lemma store3_full s K g (v0 v1 v2 : vec) (a r c : list Z) : full16 s -> okK16 K -> okv K 16 v0 -> okv K 16 v1 -> okv K 16 v2 -> length r = (3 * (K * 16))%nat ->
  store_interleaved3 s 16 K g (a ++ r ++ c) (zlen a) v0 v1 v2 = Some (a ++ inter s (K * (16 / s)) [concat v0; concat v1; concat v2] ++ c).
Proof.
  intros O OK H0 H1 H2 HL. unfold store_interleaved3. cbn [Nat.eqb].
  destruct (zip3 K 16 v0 v1 v2 H0 H1 H2) as (ts & HT & HF & -> & -> & -> & HM). rewrite HM. destruct (lift_si3 s ts O HF) as [EI FI].
  rewrite st3_ok; [|exact OK|rewrite map_length; exact HT|exact FI|exact HL]. rewrite EI, HT. reflexivity.
Qed.
Lemma store4_full s K g (v0 v1 v2 v3 : vec) (a r c : list Z) : full16 s -> okK16 K -> okv K 16 v0 -> okv K 16 v1 -> okv K 16 v2 -> okv K 16 v3 -> length r = (4 * (K * 16))%nat ->
  store_interleaved4 s 16 K g (a ++ r ++ c) (zlen a) v0 v1 v2 v3 = Some (a ++ inter s (K * (16 / s)) [concat v0; concat v1; concat v2; concat v3] ++ c).
Proof.
  intros O OK H0 H1 H2 H3 HL. unfold store_interleaved4. cbn [Nat.eqb].
  destruct (zip4 K 16 v0 v1 v2 v3 H0 H1 H2 H3) as (ts & HT & HF & -> & -> & -> & -> & HM). rewrite HM. destruct (lift_si4 s ts O HF) as [EI FI].
  rewrite st4_ok; [|exact OK|rewrite map_length; exact HT|exact FI|exact HL]. rewrite EI, HT. reflexivity.
Qed.
(** ** partial vectors *)
Definition okpart (s nb : nat) : Prop := (nb = 8%nat /\ (s = 1 \/ s = 2 \/ s = 4 \/ s = 8)%nat) \/ (nb = 4%nat /\ (s = 1 \/ s = 2 \/ s = 4)%nat) \/ (nb = 2%nat /\ (s = 1 \/ s = 2)%nat) \/ (nb = 1%nat /\ s = 1%nat).
Lemma store1 (a r c y : list Z) z : length r = length y -> y = z -> storeu (a ++ r ++ c) (zlen a) y = Some (a ++ z ++ c).
Proof. intros H <-. apply storeu_at; [reflexivity|unfold zlen; lia]. Qed.
Lemma store2' (a r c o0 o1 z : list Z) d : length r = length (concat [o0; o1]) -> d = zlen o0 -> concat [o0; o1] = z ->
  match storeu (a ++ r ++ c) (zlen a) o0 with Some m => storeu m (zlen a + d) o1 | None => None end = Some (a ++ z ++ c).
Proof.
  intros H -> <-. transitivity (chain (a ++ r ++ c) (zlen a) [o0; o1]); [|apply chain_ok; exact H]. cbn [chain]. destruct (storeu (a ++ r ++ c) (zlen a) o0) as [m|]; [|reflexivity]. destruct (storeu m _ o1); reflexivity.
Qed.
Lemma store3' (a r c o0 o1 o2 z : list Z) d e : length r = length (concat [o0; o1; o2]) -> d = zlen o0 -> e = zlen o0 + zlen o1 -> concat [o0; o1; o2] = z ->
  match storeu (a ++ r ++ c) (zlen a) o0 with Some m => match storeu m (zlen a + d) o1 with Some m => storeu m (zlen a + e) o2 | None => None end | None => None end = Some (a ++ z ++ c).
Proof.
  intros H -> -> <-. transitivity (chain (a ++ r ++ c) (zlen a) [o0; o1; o2]); [|apply chain_ok; exact H]. cbn [chain]. destruct (storeu (a ++ r ++ c) (zlen a) o0) as [m|]; [|reflexivity]. destruct (storeu m _ o1) as [m'|]; [|reflexivity]. rewrite Z.add_assoc. destruct (storeu m' _ o2); reflexivity.
Qed.
Ltac byeq HL := rewrite HL; reflexivity.
Lemma store2_part s nb (x y : block) (a r c : list Z) : okpart s nb -> length x = nb -> length y = nb -> length r = (2 * nb)%nat ->
  store_interleaved2 s nb 1 (a ++ r ++ c) (zlen a) [x] [y] = Some (a ++ inter s (nb / s) [x; y] ++ c).
Proof.
  intros O HX HY HL. destruct O as [[-> O]|[[-> O]|[[-> O]|[-> ->]]]]; [expl 8 x HX; expl 8 y HY; destruct O as [->|[->|[->| ->]]]|expl 4 x HX; expl 4 y HY; destruct O as [->|[->| ->]]|expl 2 x HX; expl 2 y HY; destruct O as [->| ->]|expl 1 x HX; expl 1 y HY];
  apply store1; [byeq HL|fin|byeq HL|fin|byeq HL|fin|byeq HL|fin|byeq HL|fin|byeq HL|fin|byeq HL|fin|byeq HL|fin|byeq HL|fin|byeq HL|fin].
Qed.
Ltac st1 HL := apply store1; [byeq HL|fin].
Ltac st2 HL := apply (store2' _ _ _ _ _ _ _); [byeq HL|reflexivity|fin].
Ltac st3 HL := apply (store3' _ _ _ _ _ _ _ _ _); [byeq HL|reflexivity|reflexivity|fin].
Lemma store3_part s nb g (x y z : block) (a r c : list Z) : okpart s nb -> (forall j, length (g j) = (16 - nb)%nat) -> length x = nb -> length y = nb -> length z = nb -> length r = (3 * nb)%nat ->
  store_interleaved3 s nb 1 g (a ++ r ++ c) (zlen a) [x] [y] [z] = Some (a ++ inter s (nb / s) [x; y; z] ++ c).
Proof.
  intros O HG HX HY HZ HL. unfold store_interleaved3, full. clear HG.
  destruct O as [[-> O]|[[-> O]|[[-> O]|[-> ->]]]]; cbn [Nat.eqb].
  - expl 8 x HX; expl 8 y HY; expl 8 z HZ. destruct O as [->|[->|[->| ->]]]; cbn [Nat.eqb]; cbv zeta beta.
    + st2 HL.
    + st2 HL.
    + st3 HL.
    + st3 HL.
  - expl 4 x HX; expl 4 y HY; expl 4 z HZ. destruct O as [->|[->| ->]]; cbn [Nat.eqb]; cbv zeta beta.
    + st1 HL.
    + st1 HL.
    + st3 HL.
  - expl 2 x HX; expl 2 y HY; expl 2 z HZ. destruct O as [->| ->]; cbn [Nat.eqb]; cbv zeta beta.
    + st1 HL.
    + st3 HL.
  - expl 1 x HX; expl 1 y HY; expl 1 z HZ. st3 HL.
Qed.
Lemma store4_part s nb g (x y z w : block) (a r c : list Z) : okpart s nb -> (forall j, length (g j) = (16 - nb)%nat) -> length x = nb -> length y = nb -> length z = nb -> length w = nb -> length r = (4 * nb)%nat ->
  store_interleaved4 s nb 1 g (a ++ r ++ c) (zlen a) [x] [y] [z] [w] = Some (a ++ inter s (nb / s) [x; y; z; w] ++ c).
Proof.
  intros O HG HX HY HZ HW HL. unfold store_interleaved4, full.
  assert (H0 := HG 0%nat). assert (H1 := HG 1%nat). assert (H2 := HG 2%nat). assert (H3 := HG 3%nat). clear HG.
  generalize dependent (g 0%nat). intros g0 H0. generalize dependent (g 1%nat). intros g1 H1. generalize dependent (g 2%nat). intros g2 H2. generalize dependent (g 3%nat). intros g3 H3.
  destruct O as [[-> O]|[[-> O]|[[-> O]|[-> ->]]]]; cbn [Nat.eqb].
  - expl 8 x HX; expl 8 y HY; expl 8 z HZ; expl 8 w HW. cbn in H0, H1, H2, H3. expl 8 g0 H0. expl 8 g1 H1. expl 8 g2 H2. expl 8 g3 H3. destruct O as [->|[->|[->| ->]]]; cbn [Nat.eqb]; cbv zeta beta.
    + st2 HL.
    + st2 HL.
    + st2 HL.
    + st2 HL.
  - expl 4 x HX; expl 4 y HY; expl 4 z HZ; expl 4 w HW. cbn in H0, H1, H2, H3. expl 12 g0 H0. expl 12 g1 H1. expl 12 g2 H2. expl 12 g3 H3. destruct O as [->|[->| ->]]; cbn [Nat.eqb]; cbv zeta beta.
    + st1 HL.
    + st1 HL.
    + st1 HL.
  - expl 2 x HX; expl 2 y HY; expl 2 z HZ; expl 2 w HW. cbn in H0, H1, H2, H3. expl 14 g0 H0. expl 14 g1 H1. expl 14 g2 H2. expl 14 g3 H3. destruct O as [->| ->]; cbn [Nat.eqb]; cbv zeta beta.
    + st1 HL.
    + st1 HL.
  - expl 1 x HX; expl 1 y HY; expl 1 z HZ; expl 1 w HW. cbn in H0, H1, H2, H3. expl 15 g0 H0. expl 15 g1 H1. expl 15 g2 H2. expl 15 g3 H3. st1 HL.
Qed.
