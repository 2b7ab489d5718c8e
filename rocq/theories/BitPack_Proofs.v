(** Lifting the symbolic check to arrays. *)
From Coq Require Import String ZArith List Bool Lia.
From Verif Require Import Word Word_Proofs Vec_Model Vec_Proofs Algo_Proofs BitPack_Model BitPack_Code BitPack_Spec BitPack_Sym.
Import ListNotations.
Local Open Scope string_scope.
Local Open Scope Z_scope.

Lemma bits_lt x k : 0 <= x -> 0 <= k -> (forall j, k <= j -> Z.testbit x j = false) -> x < 2 ^ k.
Proof.
  intros Hx Hk H. destruct (Z.eq_dec x 0) as [->|ne]. { apply pow2_gt0. lia. }
  apply Z.log2_lt_pow2; [lia|]. destruct (Z_lt_dec (Z.log2 x) k) as [h|h]; auto.
  exfalso. assert (T := Z.bit_log2 x ltac:(lia)). rewrite H in T by lia. discriminate.
Qed.

Lemma bitcast16_len le (v : list Z) : zlen v mod 2 = 0 -> zlen (bitcast16 le v) = zlen v / 2.
Proof.
  unfold zlen. remember (length v) as m eqn:Em. revert v Em.
  induction m as [m IH] using lt_wf_ind. intros v Em Ev.
  destruct v as [|a [|b t]]; cbn [bitcast16 length] in *.
  - now subst.
  - subst. discriminate.
  - rewrite Nat2Z.inj_succ. rewrite (IH (length t)); auto; try lia.
    + subst m. replace (Z.of_nat (Datatypes.S (Datatypes.S (length t)))) with (Z.of_nat (length t) + 1 * 2) by lia.
      rewrite Z.div_add by lia. lia.
    + subst m. replace (Z.of_nat (Datatypes.S (Datatypes.S (length t)))) with (Z.of_nat (length t) + 1 * 2) in Ev by lia.
      now rewrite Z.mod_add in Ev by lia.
Qed.
Lemma bitcast_ind (P : list Z -> Prop) : P [] -> (forall a b t, P t -> P (a :: b :: t)) ->
  forall v, zlen v mod 2 = 0 -> P v.
Proof.
  intros H0 H2 v. unfold zlen. remember (length v) as m eqn:Em. revert v Em.
  induction m as [m IH] using lt_wf_ind. intros v Em Ev.
  destruct v as [|a [|b t]]; cbn [length] in *; auto.
  - subst. discriminate.
  - apply H2. apply (IH (length t)); auto; try lia.
    subst m. replace (Z.of_nat (Datatypes.S (Datatypes.S (length t)))) with (Z.of_nat (length t) + 1 * 2) in Ev by lia.
    now rewrite Z.mod_add in Ev by lia.
Qed.
Lemma bitcast8_16 le (v : list Z) : zlen v mod 2 = 0 -> Forall (fun x => 0 <= x < 2 ^ 8) v -> bitcast8 le (bitcast16 le v) = v.
Proof.
  intros E. revert v E. apply (bitcast_ind (fun v => Forall (fun x => 0 <= x < 2 ^ 8) v -> bitcast8 le (bitcast16 le v) = v)).
  - reflexivity.
  - intros a b t IH F. inversion F as [|? ? Fa F1]; subst. inversion F1 as [|? ? Fb F2]; subst.
    cbn [bitcast16 bitcast8]. rewrite IH by auto. assert (P : 0 < 2 ^ 8) by reflexivity.
    destruct le; cbn [app].
    + rewrite Z.mul_comm, Z.mod_add, Z.div_add, Z.mod_small, Z.div_small by lia. f_equal.
    + rewrite Z.mul_comm, Z.mod_add, Z.div_add, Z.mod_small, Z.div_small by lia. f_equal.
Qed.
Definition pair_of (P : Z -> Prop) (x : Z) : Prop := exists a b, P a /\ P b /\ x = a + 2 ^ 8 * b.
Lemma bitcast16_pairs le P (v : list Z) : zlen v mod 2 = 0 -> Forall P v -> Forall (pair_of P) (bitcast16 le v).
Proof.
  intros E. revert v E. apply (bitcast_ind (fun v => Forall P v -> Forall (pair_of P) (bitcast16 le v))).
  - constructor.
  - intros a b t IH F. inversion F as [|? ? Fa F1]; subst. inversion F1 as [|? ? Fb F2]; subst.
    cbn [bitcast16]. constructor; auto. destruct le; [exists a, b|exists b, a]; auto.
Qed.
Lemma bitcast8_forall le P (v : list Z) : Forall (fun x => P (x mod 2 ^ 8) /\ P (x / 2 ^ 8)) v -> Forall P (bitcast8 le v).
Proof.
  induction 1 as [|x v [h1 h2] F IH]; cbn [bitcast8]; [constructor|]. destruct le; cbn [app]; auto.
Qed.

Lemma next_mod r elem : 0 <= r < elem -> (if r + 1 =? elem then 0 else r + 1) = (r + 1) mod elem.
Proof.
  intros H. destruct (Z.eqb_spec (r + 1) elem) as [->|ne]; [rewrite Z.mod_same; lia|rewrite Z.mod_small; lia].
Qed.
Lemma next_range r elem : 0 <= r < elem -> 0 <= (if r + 1 =? elem then 0 else r + 1) < elem.
Proof. intros H. rewrite next_mod by auto. apply Z.mod_pos_bound. lia. Qed.
Lemma next_shift r j elem : 0 <= r < elem -> ((if r + 1 =? elem then 0 else r + 1) + j) mod elem = (r + (j + 1)) mod elem.
Proof. intros H. rewrite next_mod by auto. rewrite Z.add_mod_idemp_l by lia. f_equal. lia. Qed.
Lemma raw_from_nth elem kb cnt : forall i r j, 0 <= r < elem -> (j < cnt)%nat ->
  nth j (raw_from cnt elem kb i r) Unk = if (r + Z.of_nat j) mod elem <? kb then In (i + Z.of_nat j) else B0.
Proof.
  induction cnt as [|cnt IH]; intros i r j Hr Hj; [lia|]. cbn [raw_from]. destruct j as [|j].
  - cbn [nth]. rewrite Z.add_0_r, Z.mod_small, Z.add_0_r by lia. reflexivity.
  - cbn [nth]. rewrite IH by (try lia; apply next_range; auto). rewrite next_shift by auto.
    replace (Z.of_nat j + 1) with (Z.of_nat (Datatypes.S j)) by lia.
    replace (i + 1 + Z.of_nat j) with (i + Z.of_nat (Datatypes.S j)) by lia. reflexivity.
Qed.
Lemma raw_from_length elem kb cnt : forall i r, length (raw_from cnt elem kb i r) = cnt.
Proof. induction cnt; intros; cbn [raw_from length]; auto. Qed.
Lemma small_from_nth elem kb l : forall r j, small_from elem kb r l = true -> 0 <= r < elem -> (j < length l)%nat ->
  kb <= (r + Z.of_nat j) mod elem -> nth j l Unk = B0.
Proof.
  induction l as [|b t IH]; intros r j H Hr Hj Hk; [cbn in Hj; lia|]. cbn [small_from] in H.
  apply andb_true_iff in H. destruct H as [H1 H2]. destruct j as [|j].
  - rewrite Z.add_0_r, Z.mod_small in Hk by lia. replace (r <? kb) with false in H1 by (symmetry; apply Z.ltb_ge; lia).
    cbn [orb] in H1. apply sbit_eqb_eq in H1. apply H1.
  - cbn [nth]. apply (IH _ j H2); [now apply next_range|cbn in Hj; lia|]. rewrite next_shift by auto.
    replace (Z.of_nat j + 1) with (Z.of_nat (Datatypes.S j)) by lia. exact Hk.
Qed.

Section Codec.
Variable le : bool.
Variables elem W N : Z.
Variable c : bool.
Variables n kBits frame : Z.
Variable for_ : bool.
Hypothesis Helem : 0 < elem.
Hypothesis HW : W = if c then 2 * elem else elem.
Hypothesis Hc8 : c = true -> elem = 8 /\ for_ = false.
Hypothesis HN : 0 < N.
Hypothesis Hc : c = true -> N mod 2 = 0.
Hypothesis Hn : 0 <= n.
Hypothesis Hk : 0 <= kBits <= elem.

Lemma W_pos : 0 < W. Proof. rewrite HW. clear - Helem. destruct c; lia. Qed.
Notation L := (lanes N c).

Definition okv (k : Z) (f : bool) (x : Z) : Prop :=
  0 <= x < 2 ^ elem /\ (if f then wrap elem (x - frame) else x) < 2 ^ k.

Section Src.
Variable src : list Z.
Variable m kb : Z.
Variable f : bool.
Hypothesis Hm : m * N <= zlen src.
Hypothesis Hf : c = true -> f = false.
Hypothesis Hkb : 0 <= kb <= elem.
Hypothesis Hok : Forall (okv kb f) (firstn (Z.to_nat (m * N)) src).
Definition chunk (k : Z) : list Z := firstn (Z.to_nat N) (skipn (Z.to_nat (k * N)) src).
Definition decv (k : Z) : vec := if c then bitcast16 le (chunk k) else chunk k.
Definition lval (k l : Z) : Z := let x := nth (Z.to_nat l) (decv k) 0 in if f then wrap W (x - frame) else x.
Definition inp (l i : Z) : bool := Z.testbit (lval (i / W) l) (i mod W).

Lemma chunk_len k : 0 <= k < m -> zlen (chunk k) = N.
Proof. intros H. unfold chunk. apply zlen_firstn. rewrite zlen_skipn by nia. nia. Qed.
Lemma chunk_ok k : 0 <= k < m -> Forall (okv kb f) (chunk k).
Proof.
  intros H. unfold chunk. rewrite Forall_forall in *. intros x Hx. apply Hok.
  assert (K : (Z.to_nat (k * N) + Z.to_nat N <= Z.to_nat (m * N))%nat) by nia.
  replace (Z.to_nat (m * N)) with (Z.to_nat (k * N) + (Z.to_nat N + (Z.to_nat (m * N) - Z.to_nat (k * N) - Z.to_nat N)))%nat by lia.
  rewrite firstn_add, in_app_iff. right. rewrite firstn_add, in_app_iff. now left.
Qed.
Lemma lanes_eq : if c then N = 2 * L else N = L.
Proof. apply lanes_pos; auto. Qed.
Lemma decv_len k : 0 <= k < m -> zlen (decv k) = L.
Proof.
  intros H. unfold decv, lanes. destruct c eqn:E; [|now apply chunk_len].
  rewrite bitcast16_len; rewrite chunk_len by auto; auto.
Qed.
Lemma decv_enc k : 0 <= k < m -> enc le c (decv k) = chunk k.
Proof.
  intros H. unfold enc, decv. destruct c eqn:E; auto. apply bitcast8_16.
  - rewrite chunk_len; auto.
  - destruct (Hc8 eq_refl) as [E8 _]. eapply Forall_impl; [|apply chunk_ok; exact H]. intros x [Hx _]. rewrite E8 in Hx. exact Hx.
Qed.
(** every lane: in range, upper bits of every element zero *)
Lemma lval_ok k l : 0 <= k < m -> 0 <= l < L ->
  0 <= lval k l < 2 ^ W /\ forall j, 0 <= j < W -> kb <= j mod elem -> Z.testbit (lval k l) j = false.
Proof.
  intros H Hl. assert (Lk := decv_len k H).
  assert (I : List.In (nth (Z.to_nat l) (decv k) 0) (decv k)) by (apply nth_In; unfold zlen in Lk; lia).
  unfold lval. set (x := nth (Z.to_nat l) (decv k) 0) in *.
  unfold decv in I. assert (O := chunk_ok k H). destruct c eqn:E.
  - rewrite (Hf eq_refl) in *. destruct (Hc8 eq_refl) as [E8 _]. 
    assert (P := bitcast16_pairs le (okv kb false) (chunk k)). rewrite chunk_len in P by auto.
    specialize (P (Hc eq_refl) O). rewrite Forall_forall in P. destruct (P _ I) as (a & b & [Ra Ka] & [Rb Kb] & Ex).
    rewrite E8 in Ra, Rb, HW, Hkb |- *. rewrite HW. change (2 ^ (2 * 8)) with (2 ^ 8 * 2 ^ 8). split; [nia|].
    intros j Hj Hjk. rewrite Ex, testbit_split by lia. destruct (Z.ltb_spec j 8).
    + rewrite Z.mod_small in Hjk by lia. apply (testbit_small a kb); lia.
    + apply (testbit_small b kb); [lia|]. replace j with ((j - 8) + 1 * 8) in Hjk by lia. rewrite Z.mod_add, Z.mod_small in Hjk by lia. lia.
  - rewrite Forall_forall in O. destruct (O _ I) as [Rx Kx]. subst W. split.
    + destruct f; [apply wrap_range; lia|lia].
    + intros j Hj Hjk. rewrite Z.mod_small in Hjk by lia. apply (testbit_small _ kb); [|lia].
      destruct f; [|lia]. split; [apply wrap_range; lia|lia].
Qed.
Lemma raw_bits_nth k j : 0 <= j < W -> nth (Z.to_nat j) (raw_bits W elem kb k) Unk =
  if j mod elem <? kb then In (k * W + j) else B0.
Proof.
  intros Hj. unfold raw_bits. rewrite raw_from_nth by lia. rewrite Z2Nat.id, Z.add_0_l by lia. reflexivity.
Qed.
Lemma raw_rep k l : 0 <= k < m -> 0 <= l < L -> rep W (inp l) (raw_bits W elem kb k) (lval k l).
Proof.
  intros H Hl. assert (WP := W_pos). destruct (lval_ok k l H Hl) as [R Z0]. split; [|split]; auto.
  - unfold raw_bits. rewrite raw_from_length. lia.
  - intros j Hj. rewrite raw_bits_nth by auto. destruct (Z.ltb_spec (j mod elem) kb); cbn [agrees].
    + unfold inp. rewrite Z.add_comm, Z.div_add, Z.mod_add, Z.div_small, Z.mod_small by lia. reflexivity.
    + apply Z0; lia.
Qed.
Lemma raw_src_ok : src_ok W le N c frame inp src (raw_desc W f elem kb m).
Proof.
  intros k sv E. unfold raw_desc in E. destruct ((0 <=? k) && (k <? m)) eqn:Q; [|discriminate].
  apply andb_true_iff in Q. destruct Q as [q1 q2]. apply Z.leb_le in q1. apply Z.ltb_lt in q2.
  injection E as <-. exists (decv k). split.
  - rewrite decv_enc by lia. apply loadu_ok; nia.
  - split. { apply decv_len; lia. } intros l Hl.
    assert (R := raw_rep k l ltac:(lia) Hl). assert (Lk := decv_len k ltac:(lia)).
    assert (I : List.In (nth (Z.to_nat l) (decv k) 0) (decv k)) by (apply nth_In; unfold zlen in Lk; lia).
    assert (O := chunk_ok k ltac:(lia)). rewrite Forall_forall in O.
    unfold lval in R. destruct (bool_dec f true) as [Ef|Ef]; [|apply not_true_is_false in Ef]; rewrite Ef in R |- *; cbn [dens]; [|exact R].
    eexists; split; [exact R|]. rewrite wrap_add_l.
    assert (Ec : c = false). { destruct (bool_dec c true) as [e|e]; [|now apply not_true_is_false in e]. rewrite (Hf e) in Ef. discriminate. }
    replace (nth (Z.to_nat l) (decv k) 0 - frame + frame) with (nth (Z.to_nat l) (decv k) 0) by lia.
    symmetry. apply wrap_small. rewrite HW, Ec.
    unfold decv in I |- *. rewrite Ec in *. apply (O _ I).
Qed.
End Src.

Lemma enc_len (v : vec) : zlen v = L -> zlen (enc le c v) = N.
Proof. intros H. assert (G := lanes_eq). unfold enc. destruct c; [rewrite bitcast8_len|]; lia. Qed.

(** Concatenation of chunks. *)
Lemma chunks_eq (a b : list Z) (m : nat) :
  (forall k, 0 <= k < Z.of_nat m -> exists w, loadu a (k * N) N = Some w /\ loadu b (k * N) N = Some w) ->
  firstn (Z.to_nat (Z.of_nat m * N)) a = firstn (Z.to_nat (Z.of_nat m * N)) b.
Proof.
  induction m as [|m IH]; intros H. { cbn. reflexivity. }
  replace (Z.to_nat (Z.of_nat (Datatypes.S m) * N)) with (Z.to_nat (Z.of_nat m * N) + Z.to_nat N)%nat by nia.
  rewrite !firstn_add. f_equal. { apply IH. intros k K. apply H. lia. }
  destruct (H (Z.of_nat m) ltac:(lia)) as (w & E1 & E2). unfold loadu in E1, E2.
  destruct (_ && _); [|discriminate]. destruct ((0 <=? _) && (_ <=? zlen b)); [|discriminate]. congruence.
Qed.
Lemma forall_chunks (P : Z -> Prop) (a : list Z) (m : nat) :
  (forall k, 0 <= k < Z.of_nat m -> exists w, loadu a (k * N) N = Some w /\ Forall P w) ->
  Forall P (firstn (Z.to_nat (Z.of_nat m * N)) a).
Proof.
  induction m as [|m IH]; intros H. { cbn. constructor. }
  replace (Z.to_nat (Z.of_nat (Datatypes.S m) * N)) with (Z.to_nat (Z.of_nat m * N) + Z.to_nat N)%nat by nia.
  rewrite !firstn_add. apply Forall_app. split. { apply IH. intros k K. apply H. lia. }
  destruct (H (Z.of_nat m) ltac:(lia)) as (w & E1 & E2). unfold loadu in E1.
  destruct (_ && _); [|discriminate]. injection E1 as <-. exact E2.
Qed.
Lemma skip_eq (a b : list Z) m : 0 <= m -> (forall j, m <= j -> nth_error a (Z.to_nat j) = nth_error b (Z.to_nat j)) ->
  skipn (Z.to_nat m) a = skipn (Z.to_nat m) b.
Proof.
  intros Hm H. apply nth_error_ext. intros i. rewrite !nth_error_skipn'.
  specialize (H (m + Z.of_nat i) ltac:(lia)). rewrite Z2Nat.inj_add, Nat2Z.id in H by lia. exact H.
Qed.
Lemma loadu_prefix (a t : list Z) k m : 0 <= k < m -> zlen a = m * N -> loadu (a ++ t) (k * N) N = loadu a (k * N) N.
Proof.
  intros H La. unfold loadu. rewrite zlen_app. assert (G := zlen_nonneg t).
  replace (k * N + N <=? zlen a + zlen t) with true by (symmetry; apply Z.leb_le; nia).
  replace (k * N + N <=? zlen a) with true by (symmetry; apply Z.leb_le; nia).
  destruct (0 <=? k * N); auto. cbn [andb]. f_equal. unfold zlen in *.
  rewrite skipn_app, firstn_app.
  replace (Z.to_nat N - length (skipn (Z.to_nat (k * N)) a))%nat with 0%nat by (rewrite skipn_length; nia).
  now rewrite firstn_O, app_nil_r.
Qed.

Lemma is_bits_elems inp sv v : is_bits sv = true -> vden W N c frame inp sv v ->
  Forall (fun x => 0 <= x < 2 ^ elem) (enc le c v).
Proof.
  intros Hb [Lv Hv]. destruct sv as [b| |b]; try discriminate. unfold enc.
  assert (R : Forall (fun x => 0 <= x < 2 ^ W) v).
  { rewrite Forall_forall. intros x Hx. destruct (In_nth _ _ 0 Hx) as (i & Hi & <-).
    specialize (Hv (Z.of_nat i) ltac:(unfold zlen in Lv; lia)). rewrite Nat2Z.id in Hv. cbn [dens] in Hv. apply Hv. }
  destruct (bool_dec c true) as [Ec|Ec]; [|apply not_true_is_false in Ec]; rewrite Ec in *.
  - destruct (Hc8 eq_refl) as [E8 _]. apply bitcast8_forall. eapply Forall_impl; [|exact R].
    intros x Hx. cbn beta in *. rewrite HW, E8 in Hx. change (2 ^ (2 * 8)) with (2 ^ 8 * 2 ^ 8) in Hx. rewrite E8.
    split; [apply Z.mod_pos_bound; lia|]. split; [apply Z.div_pos; lia|apply Z.div_lt_upper_bound; lia].
  - rewrite HW in R. exact R.
Qed.

Lemma small_bits_zero inp b y j : small_bits elem kBits b = true -> rep W inp b y ->
  0 <= j < W -> kBits <= j mod elem -> Z.testbit y j = false.
Proof.
  intros Hs (Lb & _ & Hr) Hj Hjk. specialize (Hr j Hj).
  rewrite (small_from_nth elem kBits b 0 (Z.to_nat j) Hs) in Hr; [exact Hr|lia|lia|].
  rewrite Z2Nat.id, Z.add_0_l by lia. exact Hjk.
Qed.

Lemma small_elems inp sv v : small for_ elem kBits sv = true -> vden W N c frame inp sv v ->
  Forall (okv kBits for_) (enc le c v).
Proof.
  intros Hb [Lv Hv]. unfold enc.
  assert (R : Forall (fun x => exists l, dens W frame inp l sv x) v).
  { rewrite Forall_forall. intros x Hx. destruct (In_nth _ _ 0 Hx) as (i & Hi & <-).
    specialize (Hv (Z.of_nat i) ltac:(unfold zlen in Lv; lia)). rewrite Nat2Z.id in Hv. eauto. }
  assert (WP := W_pos).
  destruct (bool_dec c true) as [Ec|Ec]; [|apply not_true_is_false in Ec]; rewrite Ec in *.
  - destruct (Hc8 eq_refl) as [E8 E0]. apply bitcast8_forall. eapply Forall_impl; [|exact R].
    intros x [l Hx]. rewrite E0 in *. destruct sv as [b| |b]; try discriminate. cbn [small negb andb dens] in *.
    assert (Z0 := fun j => small_bits_zero _ b x j Hb Hx). destruct Hx as (_ & Rx & _).
    rewrite HW, E8 in Rx, Z0. change (2 ^ (2 * 8)) with (2 ^ 8 * 2 ^ 8) in Rx. unfold okv. rewrite E8 in *.
    assert (H0 : 0 <= x mod 2 ^ 8 < 2 ^ 8) by (apply Z.mod_pos_bound; lia).
    assert (H1 : 0 <= x / 2 ^ 8 < 2 ^ 8) by (split; [apply Z.div_pos; lia|apply Z.div_lt_upper_bound; lia]).
    split; (split; [assumption|]); apply bits_lt; try lia; intros j Hj.
    + destruct (Z_lt_dec j 8).
      * rewrite Z.mod_pow2_bits_low by lia. apply Z0; [lia|]. rewrite Z.mod_small; lia.
      * apply (testbit_small _ 8); lia.
    + destruct (Z_lt_dec j 8).
      * rewrite Z.div_pow2_bits by lia. apply Z0; [lia|]. replace (j + 8) with (j + 1 * 8) by lia.
        rewrite Z.mod_add, Z.mod_small by lia. lia.
      * apply (testbit_small _ 8); lia.
  - eapply Forall_impl; [|exact R]. intros x [l Hx].
    destruct sv as [b| |b]; cbn [small] in Hb; try discriminate; apply andb_true_iff in Hb; destruct Hb as [Hf Hb]; cbn [dens] in Hx.
    + apply negb_true_iff in Hf. rewrite Hf in *. assert (Z0 := fun j => small_bits_zero _ b x j Hb Hx).
      destruct Hx as (_ & Rx & _). rewrite HW in Rx, Z0. split; [exact Rx|]. apply bits_lt; try lia. intros j Hj.
      destruct (Z_lt_dec j elem); [apply Z0; [lia|rewrite Z.mod_small; lia]|apply (testbit_small _ elem); lia].
    + rewrite Hf in *. destruct Hx as (y & Hy & ->). assert (Z0 := fun j => small_bits_zero _ b y j Hb Hy).
      destruct Hy as (_ & Ry & _). rewrite HW in Ry, Z0 |- *. split; [apply wrap_range; lia|]. rewrite wrap_sub_l.
      replace (y + frame - frame) with y by lia. rewrite wrap_small by lia.
      apply bits_lt; try lia. intros j Hj.
      destruct (Z_lt_dec j elem); [apply Z0; [lia|rewrite Z.mod_small; lia]|apply (testbit_small _ elem); lia].
Qed.

Lemma run_exec p src dst : cast p = c -> run le elem N p frame src dst =
  exec le W N c src (body p) [("frame_of_reference", set L frame)] dst.
Proof. intros E. unfold run. rewrite E, HW. reflexivity. Qed.

Lemma two_way (p1 p2 : prog) f1 kb1 n1 n2 mid ks P src mid0 :
  cast p1 = c -> cast p2 = c -> (c = true -> f1 = false) -> 0 <= kb1 <= elem -> 0 <= n1 -> 0 <= n2 ->
  check W (raw_desc W f1 elem kb1 n1) n1 n2 mid ks p1 p2 = true ->
  (forall inp sv v, mid sv = true -> vden W N c frame inp sv v -> Forall P (enc le c v)) ->
  n1 * N <= zlen src -> Forall (okv kb1 f1) (firstn (Z.to_nat (n1 * N)) src) -> n2 * N <= zlen mid0 ->
  exists code,
    zlen code = n2 * N /\ Forall P code /\
    run le elem N p1 frame src mid0 = Some (code ++ skipn (Z.to_nat (n2 * N)) mid0)%list /\
    forall rest out0, n1 * N <= zlen out0 -> exists b,
      run le elem N p2 frame (code ++ rest) out0 = Some b /\ zlen b = zlen out0 /\
      skipn (Z.to_nat (n1 * N)) b = skipn (Z.to_nat (n1 * N)) out0 /\
      forall k, List.In k ks -> exists w, loadu src (k * N) N = Some w /\ loadu b (k * N) N = Some w.
Proof.
  intros C1 C2 F1 K1 N1 N2 Chk HP Ls Oks Lm.
  assert (S := raw_src_ok src n1 kb1 f1 Ls F1 K1 Oks).
  destruct (check_sound W W_pos le N c HN Hc frame _ _ n1 n2 mid ks p1 p2 src mid0 C1 C2 N1 N2 Lm Chk S)
    as (m & E1 & Z1 & T1 & M1 & R1).
  assert (A : 0 <= n2 * N) by nia. assert (A1 : 0 <= n1 * N) by nia.
  exists (firstn (Z.to_nat (n2 * N)) m).
  assert (Lc : zlen (firstn (Z.to_nat (n2 * N)) m) = n2 * N) by (apply zlen_firstn; lia).
  split; [exact Lc|]. split; [|split].
  - rewrite <- (Z2Nat.id n2) by lia. apply forall_chunks. rewrite Z2Nat.id by lia. intros k Hkk.
    destruct (M1 k Hkk) as (sv & v & Ms & Ev & Vv). exists (enc le c v). split; auto. eapply HP; eauto.
  - rewrite run_exec, E1 by auto. f_equal. rewrite <- (firstn_skipn (Z.to_nat (n2 * N)) m) at 1. f_equal.
    apply skip_eq; auto.
  - intros rest out0 Lo.
    destruct (R1 (firstn (Z.to_nat (n2 * N)) m ++ rest)%list out0 Lo) as (b & E2 & Z2 & T2 & Kk).
    + intros k Hkk. rewrite (loadu_prefix _ rest k n2 Hkk Lc).
      rewrite <- (loadu_prefix _ (skipn (Z.to_nat (n2 * N)) m) k n2 Hkk Lc). now rewrite firstn_skipn.
    + exists b. split; [|split; [|split]]; auto.
      * rewrite run_exec; auto.
      * apply skip_eq; auto.
Qed.

Lemma codec_sound pk un :
  cast pk = c -> cast un = c ->
  check W (raw_desc W for_ elem kBits n) n kBits is_bits (zs n) pk un = true ->
  check W (raw_desc W false elem elem kBits) kBits n (small for_ elem kBits) (zs kBits) un pk = true ->
  lossless elem n kBits N (okv kBits for_) (run le elem N pk frame) (run le elem N un frame) /\
  onto elem n kBits N (okv kBits for_) (run le elem N pk frame) (run le elem N un frame).
Proof.
  intros C1 C2 F B. split.
  - intros raw packed0 Lr Ok Lp.
    destruct (two_way pk un for_ kBits n kBits is_bits (zs n) _ raw packed0 C1 C2 ltac:(apply Hc8) Hk Hn ltac:(lia) F is_bits_elems Lr Ok Lp)
      as (code & Lc & Fc & E1 & R).
    exists code. split; [exact Lc|split; [exact Fc|split; [exact E1|]]].
    intros rest out0 Lo. destruct (R rest out0 Lo) as (b & E2 & Lb & Sb & Kb). rewrite E2. f_equal.
    unfold take, drop. rewrite <- (firstn_skipn (Z.to_nat (n * N)) b) at 1. rewrite Sb. f_equal.
    symmetry. rewrite <- (Z2Nat.id n) by lia. apply chunks_eq. rewrite Z2Nat.id by lia.
    intros k Hkk. apply Kb. now apply in_zs.
  - intros code out0 Lr Ok Lp.
    assert (Ok' : Forall (okv elem false) (firstn (Z.to_nat (kBits * N)) code)).
    { eapply Forall_impl; [|exact Ok]. intros x Hx. split; [exact Hx|apply Hx]. }
    destruct (two_way un pk false elem kBits n (small for_ elem kBits) (zs kBits) _ code out0 C2 C1 ltac:(auto) ltac:(lia) ltac:(lia) Hn B small_elems Lr Ok' Lp)
      as (vals & Lc & Fc & E1 & R).
    exists vals. split; [exact Lc|split; [exact Fc|split; [exact E1|]]].
    intros rest packed0 Lo. destruct (R rest packed0 Lo) as (b & E2 & Lb & Sb & Kb). rewrite E2. f_equal.
    unfold take, drop. rewrite <- (firstn_skipn (Z.to_nat (kBits * N)) b) at 1. rewrite Sb. f_equal.
    symmetry. rewrite <- (Z2Nat.id kBits) by lia. apply chunks_eq. rewrite Z2Nat.id by lia.
    intros k Hkk. apply Kb. apply in_zs. lia.
Qed.
End Codec.

(** The finite check for one instantiation. *)
Definition codec_check (for_ : bool) (elem n kBits : Z) (p u : option prog) : bool :=
  match p, u with
  | Some pk, Some un =>
      let W := if cast pk then 2 * elem else elem in
      Bool.eqb (cast pk) (cast un) && (negb (cast pk) || ((elem =? 8) && negb for_)) &&
      check W (raw_desc W for_ elem kBits n) n kBits is_bits (zs n) pk un &&
      check W (raw_desc W false elem elem kBits) kBits n (small for_ elem kBits) (zs kBits) un pk
  | _, _ => false
  end.

Lemma codec_check_sound for_ elem n kBits p u : codec_check for_ elem n kBits p u = true ->
  0 < elem -> 0 <= n -> 0 <= kBits <= elem ->
  exists pk un, p = Some pk /\ u = Some un /\
  forall le N frame, 0 < N -> (cast pk = true -> N mod 2 = 0) ->
    lossless elem n kBits N (okv elem frame kBits for_) (run le elem N pk frame) (run le elem N un frame) /\
    onto elem n kBits N (okv elem frame kBits for_) (run le elem N pk frame) (run le elem N un frame).
Proof.
  intros H He Hn Hk. unfold codec_check in H. destruct p as [pk|]; [|discriminate]. destruct u as [un|]; [|discriminate].
  rewrite !andb_true_iff in H. destruct H as [[[H1 H2] H3] H4]. apply eqb_prop in H1.
  exists pk, un. split; auto. split; auto. intros le N frame HN Hev.
  eapply (codec_sound le elem _ N (cast pk) n kBits frame for_ He eq_refl); eauto.
  intros Ec. rewrite Ec in H2. cbn [negb orb] in H2. apply andb_true_iff in H2. destruct H2 as [h1 h2].
  apply Z.eqb_eq in h1. apply negb_true_iff in h2. auto.
Qed.
