From Coq Require Import ZArith List Lia Bool.
From Verif Require Import Word Word_Proofs Arith_Model Arith_Proofs Alloc_Model Alloc_Spec.
Import ListNotations.
Local Open Scope Z_scope.

(** ** byte memory *)
Lemma store_other n : forall m a v x, (x < a \/ a + Z.of_nat n <= x) -> store_bytes n m a v x = m x.
Proof.
  induction n as [|n IH]; intros m a v x H; [reflexivity|]. cbn [store_bytes]. rewrite IH by lia. unfold upd.
  destruct (Z.eqb_spec x a); [lia|reflexivity].
Qed.
Lemma load_ext n : forall m m' a, (forall x, a <= x < a + Z.of_nat n -> m x = m' x) -> load_bytes n m a = load_bytes n m' a.
Proof.
  induction n as [|n IH]; intros m m' a H; [reflexivity|]. cbn [load_bytes]. rewrite (H a) by lia. rewrite (IH m m' (a + 1)); [reflexivity|].
  intros x Hx. apply H. lia.
Qed.
Lemma load_store n : forall m a v, 0 <= v < 256 ^ Z.of_nat n -> load_bytes n (store_bytes n m a v) a = v.
Proof.
  induction n as [|n IH]; intros m a v H; [cbn in *; lia|]. cbn [store_bytes load_bytes].
  rewrite IH. 2:{ rewrite Nat2Z.inj_succ, Z.pow_succ_r in H by lia. split; [apply Z.div_pos; lia|apply Z.div_lt_upper_bound; lia]. }
  rewrite store_other by lia. unfold upd. rewrite Z.eqb_refl. pose proof (Z.div_mod v 256). lia.
Qed.
Lemma load64_store64 m a v : in_u 64 v -> load64 (store64 m a v) a = v.
Proof. intros H. apply load_store. unfold in_u in H. replace (256 ^ Z.of_nat 8) with (2 ^ 64) by reflexivity. lia. Qed.
Lemma load64_ext m m' a : (forall x, a <= x < a + 8 -> m x = m' x) -> load64 m a = load64 m' a.
Proof. intros H. apply load_ext. intros x Hx. apply H. lia. Qed.

(** ** address arithmetic *)
Lemma land_align x j : 0 <= x < 2 ^ 64 -> 0 <= j <= 64 -> Z.land x (wrap 64 (Z.lnot (2 ^ j - 1))) = 2 ^ j * (x / 2 ^ j).
Proof.
  intros Hx Hj. rewrite Z.mul_comm, <- Z.shiftl_mul_pow2, <- Z.shiftr_div_pow2 by lia.
  apply Z.bits_inj'. intros b Hb. rewrite Z.land_spec, testbit_wrap by lia. rewrite Z.lnot_spec by lia.
  replace (2 ^ j - 1) with (Z.ones j) by (rewrite Z.ones_equiv; lia).
  destruct (Z_lt_ge_dec b j) as [Hlt|Hge].
  - rewrite Z.ones_spec_low by lia. cbn [negb]. rewrite Z.shiftl_spec_low by lia. destruct (b <? 64); apply andb_false_r.
  - rewrite Z.ones_spec_high by lia. rewrite Z.shiftl_spec by lia. rewrite Z.shiftr_spec by lia. replace (b - j + j) with b by lia. cbn [negb].
    destruct (Z.ltb_spec b 64); [now rewrite andb_true_r|]. rewrite (testbit_small x 64 b) by lia. reflexivity.
Qed.

Section A.
Variables i j : Z.
Hypothesis Hij : 4 <= i <= j.
Hypothesis Hj : j <= 32.
Let kAl := 2 ^ i.
Let kAlias := 2 ^ j.

Lemma kAl_range : 16 <= kAl <= kAlias /\ kAlias <= 2 ^ 32.
Proof. unfold kAl, kAlias. split; [split|]. - change 16 with (2 ^ 4). apply Z.pow_le_mono_r; lia. - apply Z.pow_le_mono_r; lia. - apply Z.pow_le_mono_r; lia. Qed.
Lemma kAl_div : (kAl | kAlias).
Proof. exists (2 ^ (j - i)). unfold kAl, kAlias. rewrite <- Z.pow_add_r by lia. f_equal. lia. Qed.

Lemma offset_ok next : 0 <= next -> let o := fst (next_aligned_offset kAl kAlias next) in (kAl | o) /\ 0 <= o < kAlias.
Proof.
  intros Hn. cbn. pose proof kAl_range as R. destruct kAl_div as (q & E). split; [apply Z.divide_factor_l|].
  assert (0 < q) by nia. assert (kAlias / kAl = q) by (rewrite E; apply Z.div_mul; lia). rewrite H0.
  pose proof (Z.mod_pos_bound next q). nia.
Qed.

Lemma begin_ok size off0 o req : (kAl | off0) -> 0 <= off0 < kAlias -> 0 <= size -> alloc_begin kAl kAlias size off0 = Request o req ->
  0 < size < 2 ^ 63 /\ (kAl | o) /\ kAl <= o <= kAlias /\ req = kAlias + o + size.
Proof.
  intros HD HR HS. pose proof kAl_range as R. unfold alloc_begin. destruct (Z.eqb_spec size 0); [discriminate|].
  destruct (Z.leb_spec ((2 ^ 64 - 1) / 2) size) as [|Hs]; [discriminate|]. change ((2 ^ 64 - 1) / 2) with (2 ^ 63 - 1) in Hs.
  assert (W : forall o', 0 <= o' <= kAlias -> wrap 64 (kAlias + o' + size) = kAlias + o' + size) by (intros; apply wrap_small; lia).
  destruct (Z.eqb_spec off0 0) as [->|N0].
  - destruct (RoundUpTo_ok header_size kAl) as (r & E & (q & Eq) & B); try (unfold header_size; lia). rewrite E. intros H.
    injection H as <- <-. unfold header_size in B. assert (q = 1) by nia. subst q. subst r. split; [lia|]. split; [exists 1; lia|]. split; [lia|]. apply W. lia.
  - intros H. injection H as <- <-. split; [lia|]. split; [exact HD|]. assert (kAl <= off0) by (apply Z.divide_pos_le; [lia|exact HD]). split; [lia|apply W; lia].
Qed.

Lemma payload_ok block o req size : (kAl | o) -> kAl <= o <= kAlias -> 0 < size -> req = kAlias + o + size -> 0 < block -> block + req < 2 ^ 64 ->
  let p := alloc_payload kAlias block o in
  (kAl | p) /\ block <= p - 16 /\ p + size <= block + req /\ p < 2 ^ 64.
Proof.
  intros HD HO HS HR HB HL. pose proof kAl_range as R. cbn zeta. unfold alloc_payload.
  rewrite (wrap_small 64 (block + kAlias)) by lia. pose proof (land_align (block + kAlias) j ltac:(lia) ltac:(lia)) as LA. fold kAlias in LA. rewrite !LA. clear LA.
  pose proof (Z.div_mod (block + kAlias) kAlias ltac:(lia)) as DM. pose proof (Z.mod_pos_bound (block + kAlias) kAlias ltac:(lia)) as MB.
  set (q := (block + kAlias) / kAlias) in *.
  rewrite (wrap_small 64 (kAlias * q + o)) by lia. split; [|lia]. apply Z.divide_add_r; [|exact HD]. apply Z.divide_mul_l. apply kAl_div.
Qed.

(** ** history invariant *)
Definition lv_ok (m : mem) (l : live) : Prop :=
  (kAl | lv_payload l) /\ 0 < lv_size l < 2 ^ 63 /\ 0 < lv_block l /\ lv_block l <= lv_payload l - 16 /\
  lv_payload l + lv_size l <= lv_block l + lv_block_size l /\ lv_block l + lv_block_size l < 2 ^ 64 /\
  load64 m (lv_payload l - 16) = lv_block l /\ load64 m (lv_payload l - 8) = lv_size l.
Definition hinv (s : hstate) : Prop :=
  0 <= h_next s < 2 ^ 64 /\ Forall (lv_ok (h_mem s)) (h_live s) /\
  ForallOrdPairs (fun a b => disjoint (lv_block a) (lv_block_size a) (lv_block b) (lv_block_size b)) (h_live s).

Lemma lv_ok_ext m m' l : lv_ok m l -> (forall x, lv_payload l - 16 <= x < lv_payload l -> m' x = m x) -> lv_ok m' l.
Proof.
  unfold lv_ok. intros (A & B & C & D & E & F & G & H) HM. split; [exact A|]. do 5 (split; [assumption|]).
  split; [rewrite <- G|rewrite <- H]; apply load64_ext; intros x Hx; apply HM; lia.
Qed.
Lemma FOP_filter {B} (R : B -> B -> Prop) f l : ForallOrdPairs R l -> ForallOrdPairs R (filter f l).
Proof.
  induction 1 as [|a l F _ IH]; cbn [filter]; [constructor|]. destruct (f a); [|exact IH]. constructor; [|exact IH].
  rewrite Forall_forall in *. intros x Hx. apply filter_In in Hx. apply F. tauto.
Qed.

Lemma hinv_step s op : hinv s -> contract kAl kAlias op s -> hinv (hstep kAl kAlias op s).
Proof.
  intros (H1 & H2 & H3) HC. destruct op as [size block|a b|p]; cbn [hstep contract] in *.
  - destruct (next_aligned_offset kAl kAlias (h_next s)) as [off0 next'] eqn:EN.
    assert (HN : 0 <= next' < 2 ^ 64) by (unfold next_aligned_offset in EN; injection EN as _ <-; apply wrap_range; lia).
    pose proof (offset_ok (h_next s) ltac:(lia)) as HO. cbn zeta in HO. rewrite EN in HO. cbn [fst] in HO, HC.
    destruct HC as (HS & HC). destruct (alloc_begin kAl kAlias size off0) as [| |o req] eqn:EB; try (split; [exact HN|split; assumption]).
    destruct (Z.eqb_spec block 0) as [->|NB]; [split; [exact HN|split; assumption]|]. destruct HC as [|(B1 & B2 & B3)]; [lia|].
    destruct (begin_ok size off0 o req ltac:(tauto) ltac:(tauto) ltac:(lia) EB) as (C1 & C2 & C3 & C4).
    destruct (payload_ok block o req size C2 C3 ltac:(lia) C4 B1 B2) as (P1 & P2 & P3 & P4).
    set (p := alloc_payload kAlias block o) in *.
    assert (EH : alloc_header (h_mem s) block p size = store64 (store64 (h_mem s) (p - 16) block) (p - 8) size).
    { unfold alloc_header, header_size. rewrite (wrap_small 64 (p - 16)) by lia. replace (p - 16 + 8) with (p - 8) by lia. reflexivity. }
    split; [exact HN|]. cbn [h_mem h_live]. rewrite EH. split.
    + constructor.
      * unfold lv_ok. cbn [lv_payload lv_size lv_block lv_block_size]. split; [exact P1|]. do 5 (split; [lia|]). split.
        -- rewrite (load64_ext _ (store64 (h_mem s) (p - 16) block)); [apply load64_store64; unfold in_u; lia|].
           intros x Hx. unfold store64 at 1. apply store_other. lia.
        -- apply load64_store64. unfold in_u. lia.
      * rewrite Forall_forall in *. intros l Hl. pose proof (H2 l Hl) as L. apply (lv_ok_ext (h_mem s)); [exact L|].
        intros x Hx. destruct L as (_ & L1 & L2 & L3 & L4 & _). pose proof (B3 l Hl) as D. unfold disjoint in D.
        unfold store64. rewrite !store_other; [reflexivity| |]; cbn; lia.
    + constructor; [|exact H3]. apply Forall_forall. intros l Hl. cbn [lv_block lv_block_size]. apply B3. exact Hl.
  - destruct HC as (Hb & l & Hl & Ha). split; [exact H1|]. cbn [h_mem h_live]. split; [|exact H3].
    apply Forall_forall. intros l' Hl'. rewrite Forall_forall in H2. pose proof (H2 l' Hl') as L'. pose proof (H2 l Hl) as L.
    apply (lv_ok_ext (h_mem s)); [exact L'|]. intros x Hx. unfold upd. destruct (Z.eqb_spec x a) as [->|]; [|reflexivity]. exfalso.
    destruct L as (_ & A1 & A2 & A3 & A4 & _). destruct L' as (_ & B1 & B2 & B3 & B4 & _).
    destruct (ForallOrdPairs_In H3 l l' Hl Hl') as [<-|[D|D]]; unfold disjoint in *; try lia.
  - split; [exact H1|]. split; [|apply FOP_filter; exact H3]. apply Forall_forall. intros l Hl. rewrite Forall_forall in H2.
    apply H2. cbn [h_live] in Hl. apply filter_In in Hl. tauto.
Qed.

Lemma hinv_reach s : reach kAl kAlias s -> hinv s.
Proof.
  induction 1 as [m next Hn|s op _ IH HC]; [|now apply hinv_step]. split; [exact Hn|]. split; constructor.
Qed.

Lemma alloc_facts s size block o req : reach kAl kAlias s -> contract kAl kAlias (HAlloc size block) s -> block <> 0 ->
  alloc_begin kAl kAlias size (fst (next_aligned_offset kAl kAlias (h_next s))) = Request o req ->
  let p := alloc_payload kAlias block o in
  (kAl | p) /\ block <= p - 16 /\ p + size <= block + req /\ 
  h_live (hstep kAl kAlias (HAlloc size block) s) = {| lv_payload := p; lv_size := size; lv_block := block; lv_block_size := req |} :: h_live s.
Proof.
  intros HR HC NB EB. pose proof (hinv_reach s HR) as (H1 & _). cbn [contract] in HC. destruct HC as (HS & HC). rewrite EB in HC. destruct HC as [|(B1 & B2 & B3)]; [lia|].
  pose proof (offset_ok (h_next s) ltac:(lia)) as HO. cbn zeta in HO.
  destruct (begin_ok size _ o req ltac:(apply HO) ltac:(apply HO) ltac:(lia) EB) as (C1 & C2 & C3 & C4).
  destruct (payload_ok block o req size C2 C3 ltac:(lia) C4 B1 B2) as (P1 & P2 & P3 & P4). cbn zeta.
  split; [exact P1|]. split; [exact P2|]. split; [exact P3|].
  cbn [hstep]. destruct (next_aligned_offset kAl kAlias (h_next s)) as [off0 next'] eqn:EN. cbn [fst] in EB. rewrite EB.
  destruct (Z.eqb_spec block 0); [lia|reflexivity].
Qed.

Lemma free_facts s l : reach kAl kAlias s -> In l (h_live s) -> free_bytes (h_mem s) (lv_payload l) = Some (lv_block l, lv_size l).
Proof.
  intros HR Hl. destruct (hinv_reach s HR) as (_ & H2 & _). rewrite Forall_forall in H2. destruct (H2 l Hl) as (_ & A1 & A2 & A3 & A4 & A5 & A6 & A7).
  unfold free_bytes, header_size. destruct (Z.eqb_spec (lv_payload l) 0); [lia|]. rewrite (wrap_small 64 (lv_payload l - 16)) by lia.
  replace (lv_payload l - 16 + 8) with (lv_payload l - 8) by lia. now rewrite A6, A7.
Qed.
Lemma live_disjoint s : reach kAl kAlias s -> ForallOrdPairs (fun a b => disjoint (lv_payload a) (lv_size a) (lv_payload b) (lv_size b)) (h_live s).
Proof.
  intros HR. destruct (hinv_reach s HR) as (_ & H2 & H3). induction H3 as [|a l F _ IH]; [constructor|].
  pose proof (Forall_inv H2) as Ha. pose proof (Forall_inv_tail H2) as Ht. constructor; [|now apply IH].
  rewrite Forall_forall in *. intros b Hb. specialize (F b Hb). specialize (Ht b Hb). unfold lv_ok, disjoint in *. lia.
Qed.
End A.

(** request phase *)
Lemma begin_cases kAl kAlias size off0 : 0 < kAl < 2 ^ 63 -> 0 <= size < 2 ^ 64 ->
  (alloc_begin kAl kAlias size off0 = Abort <-> size = 0) /\ (alloc_begin kAl kAlias size off0 = Null <-> 2 ^ 63 - 1 <= size).
Proof.
  intros HK HS. unfold alloc_begin. change ((2 ^ 64 - 1) / 2) with (2 ^ 63 - 1).
  destruct (Z.eqb_spec size 0) as [->|]; [split; split; intros; try congruence; lia|].
  destruct (Z.leb_spec (2 ^ 63 - 1) size); [split; split; intros; try congruence; lia|].
  destruct (off0 =? 0).
  - destruct (RoundUpTo_ok header_size kAl) as (r & E & _); try (unfold header_size; lia). rewrite E. split; split; intros; try congruence; lia.
  - split; split; intros; try congruence; lia.
Qed.

(** ** array allocation *)
Lemma pow2_land n : 0 < n -> Z.land n (n - 1) = 0 -> exists k, 0 <= k /\ n = 2 ^ k.
Proof.
  intros Hn HL. exists (Z.log2 n). split; [apply Z.log2_nonneg|]. pose proof (Z.log2_spec n Hn) as (L1 & L2).
  destruct (Z.eq_dec n (2 ^ Z.log2 n)) as [E|NE]; [exact E|]. exfalso.
  assert (T : Z.testbit (Z.land n (n - 1)) (Z.log2 n) = true).
  { rewrite Z.land_spec. rewrite Z.bit_log2 by lia. cbn [andb]. replace (Z.log2 n) with (Z.log2 (n - 1)); [apply Z.bit_log2|].
    - assert (0 < 2 ^ Z.log2 n) by (apply Z.pow_pos_nonneg; [lia|apply Z.log2_nonneg]). lia.
    - apply Z.log2_unique; [apply Z.log2_nonneg|lia]. }
  rewrite HL, Z.bits_0 in T. discriminate.
Qed.
Lemma ShiftCount_fuel_some f : forall n, 0 <= n < 2 ^ (Z.of_nat f - 1) -> exists k, ShiftCount_fuel f n = Some k.
Proof.
  induction f as [|f IH]; intros n H.
  - cbn in H. lia.
  - cbn [ShiftCount_fuel]. destruct (Z.leb_spec n 1); [eexists; reflexivity|].
    destruct (IH (n / 2)) as (k & ->); [|eexists; reflexivity]. rewrite Nat2Z.inj_succ in H. replace (Z.succ (Z.of_nat f) - 1) with (Z.of_nat f) in H by lia.
    split; [apply Z.div_pos; lia|]. apply Z.div_lt_upper_bound; [lia|].
    destruct f as [|f]; [cbn in H; lia|]. rewrite Nat2Z.inj_succ in *. replace (2 * 2 ^ (Z.succ (Z.of_nat f) - 1)) with (2 ^ Z.succ (Z.of_nat f)); [lia|].
    replace (Z.succ (Z.of_nat f) - 1) with (Z.of_nat f) by lia. now rewrite Z.pow_succ_r by lia.
Qed.
Lemma alloc_items_ok kSize items : 0 < kSize < 2 ^ 64 -> 0 <= items < 2 ^ 64 ->
  alloc_items kSize items = if items * kSize <? 2 ^ 64 then Some (items * kSize) else None.
Proof.
  intros HK HI. unfold alloc_items.
  destruct (ShiftCount_fuel_some 65 kSize) as (kb & EK); [cbn; lia|]. unfold ShiftCount. rewrite EK.
  destruct (Z.eqb_spec (Z.land kSize (kSize - 1)) 0) as [E|NE].
  - destruct (pow2_land kSize ltac:(lia) E) as (k & Hk & ->).
    assert (k < 64) by (apply (Z.pow_lt_mono_r_iff 2); lia).
    pose proof (ShiftCount_ok k ltac:(lia)) as SK. unfold ShiftCount in SK. rewrite EK in SK. injection SK as ->.
    rewrite Z.shiftl_mul_pow2, Z.shiftr_div_pow2 by lia. destruct (Z.ltb_spec (items * 2 ^ k) (2 ^ 64)).
    + rewrite (wrap_small 64) by lia. rewrite Z.div_mul by lia. now rewrite Z.eqb_refl.
    + destruct (Z.eqb_spec (wrap 64 (items * 2 ^ k) / 2 ^ k) items) as [E2|]; [|reflexivity]. exfalso.
      pose proof (wrap_range 64 (items * 2 ^ k) ltac:(lia)) as W. pose proof (Z.mul_div_le (wrap 64 (items * 2 ^ k)) (2 ^ k) ltac:(lia)). nia.
  - destruct (Z.ltb_spec (items * kSize) (2 ^ 64)).
    + rewrite (wrap_small 64) by lia. rewrite Z.div_mul by lia. now rewrite Z.eqb_refl.
    + destruct (Z.eqb_spec (wrap 64 (items * kSize) / kSize) items) as [E2|]; [|reflexivity]. exfalso.
      pose proof (wrap_range 64 (items * kSize) ltac:(lia)) as W. pose proof (Z.mul_div_le (wrap 64 (items * kSize)) kSize ltac:(lia)). nia.
Qed.

(** ** AlignedNDArray *)
Definition prod (l : list Z) : Z := fold_right Z.mul 1 l.
Lemma prod_pos l : Forall (fun x => 1 <= x) l -> 1 <= prod l.
Proof. induction 1; cbn [prod fold_right]; [lia|]. fold (prod l). nia. Qed.
Lemma compute_sizes_hd l : Forall (fun x => 1 <= x) l -> prod l < 2 ^ 64 -> hd 0 (compute_sizes l) = prod l.
Proof.
  induction 1 as [|x l Hx F IH]; intros HP; [reflexivity|]. cbn [compute_sizes prod fold_right hd] in *. fold (prod l) in *.
  pose proof (prod_pos l F). rewrite IH by nia. rewrite Z.mul_comm. apply wrap_small. nia.
Qed.
(** mathematical offset *)
Fixpoint moff (ms idx : list Z) : Z :=
  match idx, ms with i :: is, _ :: r => prod r * i + moff r is | _, _ => 0 end.
Lemma moff_bound ms : forall idx, Forall (fun x => 1 <= x) ms -> length ms = S (length idx) ->
  Forall2 (fun i m => 0 <= i < m) idx (firstn (length idx) ms) ->
  0 <= moff ms idx /\ moff ms idx + last ms 0 <= prod ms /\ (last ms 0 | moff ms idx).
Proof.
  induction ms as [|m ms IH]; intros idx F HL H2; [discriminate|]. destruct idx as [|i idx].
  - destruct ms; [|discriminate]. cbn. split; [lia|]. split; [lia|]. apply Z.divide_0_r.
  - cbn [length firstn moff] in *. inversion H2; subst. inversion F; subst.
    destruct ms as [|m2 ms]; [discriminate|].
    destruct (IH idx) as (A & B & C); auto; try lia. change (last (m :: m2 :: ms) 0) with (last (m2 :: ms) 0). change (prod (m :: m2 :: ms)) with (m * prod (m2 :: ms)).
    pose proof (prod_pos (m2 :: ms) ltac:(assumption)). split; [nia|]. split; [nia|].
    apply Z.divide_add_r; [|exact C]. apply Z.divide_mul_l.
    clear. induction ms as [|x ms IH] in m2 |- *; [cbn; exists 1; lia|]. change (last (m2 :: x :: ms) 0) with (last (x :: ms) 0).
    cbn [prod fold_right]. apply Z.divide_mul_r. apply IH.
Qed.
Lemma moff_disjoint ms : forall idx idx', Forall (fun x => 1 <= x) ms -> length ms = S (length idx) -> length idx' = length idx ->
  Forall2 (fun i m => 0 <= i < m) idx (firstn (length idx) ms) -> Forall2 (fun i m => 0 <= i < m) idx' (firstn (length idx) ms) ->
  idx <> idx' -> moff ms idx + last ms 0 <= moff ms idx' \/ moff ms idx' + last ms 0 <= moff ms idx.
Proof.
  induction ms as [|m ms IH]; intros idx idx' F HL HL' H H' NE; [discriminate|]. destruct idx as [|i idx]; destruct idx' as [|i' idx']; try discriminate; [congruence|].
  cbn [length firstn moff] in *. inversion H; subst. inversion H'; subst. inversion F; subst.
  destruct ms as [|m2 ms]; [discriminate|]. change (last (m :: m2 :: ms) 0) with (last (m2 :: ms) 0).
  destruct (Z.eq_dec i i') as [->|Ni].
  - destruct (IH idx idx'); auto; try lia. congruence.
  - destruct (moff_bound (m2 :: ms) idx) as (A & B & _); auto; try lia.
    assert (LL : length idx' = length idx) by lia.
    destruct (moff_bound (m2 :: ms) idx') as (A' & B' & _); auto; try lia; [rewrite LL; assumption|].
    pose proof (prod_pos (m2 :: ms) ltac:(assumption)). destruct (Z_lt_ge_dec i i'); [left|right]; nia.
Qed.
Lemma nd_offset_moff ms : forall idx acc, Forall (fun x => 1 <= x) ms -> length ms = S (length idx) ->
  Forall2 (fun i m => 0 <= i < m) idx (firstn (length idx) ms) -> 0 <= acc -> acc + prod ms < 2 ^ 64 ->
  nd_offset_loop (compute_sizes ms) idx acc = acc + moff ms idx.
Proof.
  induction ms as [|m ms IH]; intros idx acc F HL H HA HP; [discriminate|]. destruct idx as [|i idx]; [cbn; lia|].
  cbn [length firstn] in *. inversion H; subst. inversion F; subst. cbn [compute_sizes nd_offset_loop moff].
  pose proof (prod_pos ms ltac:(assumption)) as PP. cbn [prod fold_right] in HP. fold (prod ms) in HP.
  rewrite compute_sizes_hd by (auto; nia). rewrite (wrap_small 64 (prod ms * i)) by nia. rewrite (wrap_small 64 (acc + prod ms * i)) by nia.
  rewrite IH; auto; try lia; nia.
Qed.
Lemma memory_shape_ok vb shape : 0 < vb -> shape <> [] -> Forall (fun x => 1 <= x) shape -> last shape 0 + vb - 1 < 2 ^ 64 ->
  exists ms, memory_shape vb shape = Some ms /\ length ms = length shape /\ removelast ms = removelast shape /\
    (vb | last ms 0) /\ last shape 0 <= last ms 0 < last shape 0 + vb.
Proof.
  intros Hv. induction shape as [|s r IH]; intros NE F HL; [congruence|]. inversion F; subst. destruct r as [|s2 r].
  - cbn [memory_shape last] in *. destruct (RoundUpTo_ok s vb) as (x & E & D & B); try lia. rewrite E. exists [x]. cbn. repeat split; auto; lia.
  - destruct IH as (ms & E & L & RL & D & B); auto; try congruence.
    change (memory_shape vb (s :: s2 :: r)) with (option_map (cons s) (memory_shape vb (s2 :: r))). rewrite E. exists (s :: ms).
    destruct ms as [|m2 ms]; [discriminate|]. cbn [option_map]. split; [reflexivity|]. split; [cbn [length] in *; lia|].
    split; [change (s :: removelast (m2 :: ms) = s :: removelast (s2 :: r)); now rewrite RL|]. split; assumption.
Qed.
Lemma compute_sizes_last l : length (compute_sizes l) = S (length l) /\ forall d, last l 0 < 2 ^ 64 -> 0 <= last l 0 -> l <> [] -> nth (length l - 1) (compute_sizes l) d = last l 0.
Proof.
  induction l as [|x l (IH1 & IH2)]; [split; [reflexivity|congruence]|]. cbn [compute_sizes length]. split; [now rewrite IH1|].
  intros d H1 H2 _. destruct l as [|y l]; [cbn [last length Nat.sub nth compute_sizes hd] in *; rewrite Z.mul_1_l; apply wrap_small; lia|].
  change (last (x :: y :: l) 0) with (last (y :: l) 0) in *. cbn [length Nat.sub]. 
  replace (S (length l)) with (S (length (y :: l) - 1)) by (cbn; lia). cbn [nth]. apply IH2; auto. congruence.
Qed.
Lemma removelast_firstn' {B} (l : list B) : removelast l = firstn (length l - 1) l.
Proof. induction l as [|x l IH]; [reflexivity|]. destruct l as [|y l]; [reflexivity|]. change (removelast (x :: y :: l)) with (x :: removelast (y :: l)). rewrite IH. cbn [length]. replace (S (S (length l)) - 1)%nat with (S (S (length l) - 1)) by lia. reflexivity. Qed.
Lemma Forall_removelast_last (l l2 : list Z) : Forall (fun x => 1 <= x) l -> length l2 = length l -> l <> [] -> removelast l2 = removelast l -> 1 <= last l2 0 -> Forall (fun x => 1 <= x) l2.
Proof.
  intros F HL NE ER HL2. assert (NE2 : l2 <> []) by (destruct l2; [destruct l; [congruence|discriminate]|congruence]).
  rewrite (app_removelast_last 0 NE2), ER. apply Forall_app. split; [|constructor; [exact HL2|constructor]].
  rewrite removelast_firstn'. apply Forall_forall. intros x Hx. rewrite Forall_forall in F. apply F.
  rewrite <- (firstn_skipn (length l - 1) l). apply in_or_app. now left.
Qed.
Lemma Forall2_le_last (a b : list Z) : Forall2 Z.le a b -> b <> [] -> last a 0 <= last b 0.
Proof.
  induction 1 as [|x y a b Hxy H IH]; intros NE; [congruence|]. destruct b as [|z b]; inversion H; subst; [cbn; lia|].
  change (last (x :: x0 :: l) 0) with (last (x0 :: l) 0). change (last (y :: z :: b) 0) with (last (z :: b) 0). apply IH. congruence.
Qed.
Lemma in_range_weaken (idx a b : list Z) k : Forall2 (fun i m => 0 <= i < m) idx (firstn k a) -> Forall2 Z.le a b -> Forall2 (fun i m => 0 <= i < m) idx (firstn k b).
Proof.
  intros H1 H2. revert idx k H1. induction H2 as [|x y a b Hxy H IH]; intros idx k H1.
  - destruct k; cbn [firstn] in *; exact H1.
  - destruct k; cbn [firstn] in *; [exact H1|]. inversion H1; subst. constructor; [lia|]. apply IH. assumption.
Qed.

Lemma nd_ok vb shape new_shape idx : 0 < vb -> shape <> [] -> Forall (fun x => 1 <= x) shape -> last shape 0 + vb - 1 < 2 ^ 64 ->
  prod (removelast shape) * (last shape 0 + vb) < 2 ^ 64 -> Forall2 Z.le new_shape shape -> Forall (fun x => 0 <= x) new_shape ->
  length shape = S (length idx) -> Forall2 (fun i m => 0 <= i < m) idx (firstn (length idx) new_shape) ->
  exists a, nd_ctor vb shape = Some a /\
  let (off, size) := nd_index (nd_truncate a new_shape) idx in
  size = last new_shape 0 /\ 0 <= off /\ off + size <= nd_memory_size a /\ (vb | off) /\
  forall idx', length idx' = length idx -> Forall2 (fun i m => 0 <= i < m) idx' (firstn (length idx) new_shape) -> idx' <> idx ->
    let (off', size') := nd_index (nd_truncate a new_shape) idx' in off + size <= off' \/ off' + size' <= off.
Proof.
  intros Hv NE F HL HP HT HN HI HR. destruct (memory_shape_ok vb shape Hv NE F HL) as (ms & E & L & RL & D & B).
  unfold nd_ctor. rewrite E. eexists. split; [reflexivity|]. cbn [nd_truncate nd_index nd_memory_sizes nd_sizes nd_memory_size].
  assert (H1L : 1 <= last shape 0). { rewrite (app_removelast_last 0 NE) in F. apply Forall_app in F. destruct F as (_ & F). now inversion F. }
  assert (FM : Forall (fun x => 1 <= x) ms) by (apply (Forall_removelast_last shape); auto; lia).
  assert (NM : ms <> []) by (destruct ms; [destruct shape; [congruence|discriminate]|congruence]).
  assert (PM : prod ms = prod (removelast shape) * last ms 0).
  { rewrite (app_removelast_last 0 NM) at 1. rewrite RL. unfold prod. rewrite fold_right_app. cbn [fold_right].
    rewrite Z.mul_1_r. generalize (removelast shape) (last ms 0). clear. induction l as [|x l IH]; intros z; cbn [fold_right]; [lia|]. rewrite IH. lia. }
  assert (PR : 1 <= prod (removelast shape)).
  { apply prod_pos. rewrite removelast_firstn'. apply Forall_forall. intros x Hx. rewrite Forall_forall in F. apply F. rewrite <- (firstn_skipn (length shape - 1) shape). apply in_or_app. now left. }
  assert (PL : prod ms < 2 ^ 64) by nia.
  assert (LN : length new_shape = length shape) by (clear - HT; induction HT; cbn [length]; congruence).
  assert (LL : last new_shape 0 <= last shape 0) by (apply Forall2_le_last; auto).
  assert (L0 : 0 <= last new_shape 0).
  { assert (NN : new_shape <> []) by (destruct new_shape; [destruct shape; [congruence|discriminate]|congruence]).
    rewrite (app_removelast_last 0 NN) in HN. apply Forall_app in HN. destruct HN as (_ & HN). now inversion HN. }
  assert (SZ : forall ix : list Z, length ix = length idx -> nth (length ix) (compute_sizes new_shape) 0 = last new_shape 0).
  { intros ix Hix. destruct (compute_sizes_last new_shape) as (_ & C). replace (length ix) with (length new_shape - 1)%nat by lia. apply C; try lia. intros ->. destruct shape; [congruence|discriminate LN]. }
  assert (RW : forall ix : list Z, length ix = length idx -> Forall2 (fun i m => 0 <= i < m) ix (firstn (length idx) new_shape) -> Forall2 (fun i m => 0 <= i < m) ix (firstn (length idx) ms)).
  { intros ix Hix H. pose proof (in_range_weaken ix new_shape shape (length idx) H HT) as W.
    assert (firstn (length idx) ms = removelast ms) as -> by (rewrite removelast_firstn'; f_equal; lia). rewrite RL, removelast_firstn'. replace (length shape - 1)%nat with (length idx) by lia. exact W. }
  rewrite (SZ idx eq_refl). rewrite nd_offset_moff; auto; try lia. unfold nd_memory_size. cbn [nd_memory_sizes]. rewrite compute_sizes_hd by auto.
  destruct (moff_bound ms idx) as (A1 & A2 & A3); auto; try lia.
  split; [reflexivity|]. split; [lia|]. split; [lia|]. split; [rewrite Z.add_0_l; etransitivity; [exact D|exact A3]|].
  intros idx' Hl Hr Hne. rewrite (SZ idx' Hl). assert (RW' := RW idx' Hl Hr). rewrite nd_offset_moff; auto; try lia; [|rewrite Hl; exact RW'].
  destruct (moff_disjoint ms idx idx'); auto; try lia; congruence.
Qed.

(** ** Image *)
Lemma bpr_ok vec xsize sizeof_t : (vec = 1 \/ sizeof_t <= vec) -> 1 <= vec -> 1 <= sizeof_t -> 0 <= xsize ->
  xsize * sizeof_t + 3 * vec + 256 < 2 ^ 64 ->
  exists b, bytes_per_row vec xsize sizeof_t = Some b /\ (Z.max vec 128 | b) /\
    xsize * sizeof_t + (if vec =? 1 then 0 else vec - sizeof_t) <= b /\ b < xsize * sizeof_t + vec + 2 * Z.max vec 128.
Proof.
  intros Hv H1 H2 H3 H4. unfold bytes_per_row.
  rewrite (wrap_small 64 (xsize * sizeof_t)) by nia.
  set (valid := if vec =? 1 then xsize * sizeof_t else wrap 64 (xsize * sizeof_t + wrap 64 (vec - sizeof_t))).
  assert (EV : valid = xsize * sizeof_t + (if vec =? 1 then 0 else vec - sizeof_t)).
  { unfold valid. destruct (Z.eqb_spec vec 1); [lia|]. rewrite (wrap_small 64 (vec - sizeof_t)) by nia. apply wrap_small. nia. }
  assert (V0 : 0 <= valid <= xsize * sizeof_t + vec) by (rewrite EV; destruct (vec =? 1) eqn:E; nia).
  destruct (RoundUpTo_ok valid (Z.max vec 128)) as (b & E & D & B); try lia. rewrite E. rewrite <- EV.
  destruct (b mod 128 =? 0).
  - rewrite (wrap_small 64) by lia. eexists. split; [reflexivity|]. split; [apply Z.divide_add_r; [exact D|apply Z.divide_refl]|]. lia.
  - eexists. split; [reflexivity|]. split; [exact D|]. lia.
Qed.

Lemma clamped_ok begin smax end_ : 0 <= begin < 2 ^ 64 -> 0 <= smax -> 0 <= end_ < 2 ^ 64 -> begin + smax < 2 ^ 64 ->
  clamped_size begin smax end_ = Z.max 0 (Z.min smax (end_ - begin)).
Proof.
  intros. unfold clamped_size. rewrite (wrap_small 64 (begin + smax)) by lia. destruct (Z.leb_spec (begin + smax) end_); [lia|].
  destruct (Z.ltb_spec begin end_); [rewrite (wrap_small 64) by lia|]; lia.
Qed.

Lemma mirror_ok xsize : 1 <= xsize < 2 ^ 61 -> forall fuel x, - 2 ^ 62 <= x < 2 ^ 62 -> (if x <? 0 then 2 * (- x) else 2 * x + 1) < Z.of_nat fuel ->
  exists r, mirror fuel x xsize = Some r /\ 0 <= r < xsize /\ ((2 * xsize | r - x) \/ (2 * xsize | r + x + 1)).
Proof.
  intros Hx. induction fuel as [|f IH]; intros x HR HF; [destruct (x <? 0) eqn:E; lia|]. cbn [mirror].
  destruct (Z.ltb_spec x 0) as [Hn|Hp]; cbn [orb].
  - destruct (Z.leb_spec (- 2 ^ 63) (- x - 1)); [|lia]. destruct (Z.ltb_spec (- x - 1) (2 ^ 63)); [|lia].
    destruct (Z.ltb_spec (- x) (2 ^ 63)); [|lia]. destruct (Z.ltb_spec (2 * xsize) (2 ^ 63)); [|lia]. cbn [andb].
    destruct (IH (- x - 1)) as (r & E & B & D); try lia; [destruct (Z.ltb_spec (- x - 1) 0); lia|].
    exists r. split; [exact E|]. split; [exact B|]. destruct D as [D|D]; [right|left]; [replace (r + x + 1) with (r - (- x - 1)) by lia|replace (r - x) with (r + (- x - 1) + 1) by lia]; exact D.
  - destruct (Z.leb_spec xsize x) as [Hge|Hlt].
    + destruct (Z.leb_spec (- 2 ^ 63) (2 * xsize - 1 - x)); [|lia]. destruct (Z.ltb_spec (2 * xsize - 1 - x) (2 ^ 63)); [|lia].
      destruct (Z.ltb_spec (- x) (2 ^ 63)); [|lia]. destruct (Z.ltb_spec (2 * xsize) (2 ^ 63)); [|lia]. cbn [andb].
      destruct (IH (2 * xsize - 1 - x)) as (r & E & B & D); try lia; [destruct (Z.ltb_spec (2 * xsize - 1 - x) 0); lia|].
      exists r. split; [exact E|]. split; [exact B|].
      destruct D as [D|D]; [right|left]; [replace (r + x + 1) with (r - (2 * xsize - 1 - x) + 2 * xsize) by lia|replace (r - x) with (r + (2 * xsize - 1 - x) + 1 - 2 * xsize) by lia];
        [apply Z.divide_add_r|apply Z.divide_sub_r]; auto; apply Z.divide_refl.
    + exists x. split; [reflexivity|]. split; [lia|]. left. replace (x - x) with 0 by lia. apply Z.divide_0_r.
Qed.
