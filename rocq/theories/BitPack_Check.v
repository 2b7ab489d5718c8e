(** The finite checks (one per template argument), and the two instantiations
    that fail them. *)
From Coq Require Import String ZArith List Bool Lia.
From Verif Require Import Word Word_Proofs Vec_Model Vec_Proofs Algo_Proofs BitPack_Model BitPack_Code BitPack_Spec BitPack_Sym BitPack_Proofs.
Import ListNotations.
Local Open Scope string_scope.
Local Open Scope Z_scope.

Lemma in_zrange a b k : a <= k <= b -> List.In k (zrange a b).
Proof. intros H. unfold zrange. apply in_map_iff. exists (Z.to_nat (k - a)). split; [lia|]. apply in_seq. lia. Qed.

Lemma check8 : forallb (fun k => codec_check false 8 8 k (pack8 k) (unpack8 k) &&
  match pack8 k with Some p => Bool.eqb (cast p) (k <? 8) | None => false end) (zrange 1 8) = true.
Proof. vm_compute. reflexivity. Qed.
Lemma check16 : forallb (fun k => (k =? 11) || (k =? 13) || (codec_check false 16 16 k (pack16 k) (unpack16 k) &&
  match pack16 k with Some p => negb (cast p) | None => false end)) (zrange 1 16) = true.
Proof. vm_compute. reflexivity. Qed.
Lemma check32 : forallb (fun f => forallb (fun k => codec_check f 32 32 k (pack32 f k) (unpack32 f k)) (zrange 1 32)) [true; false] = true.
Proof. vm_compute. reflexivity. Qed.
Lemma check64 : forallb (fun f => forallb (fun k => codec_check f 64 64 k (pack64 f k) (unpack64 f k)) (zrange 1 64)) [true; false] = true.
Proof. vm_compute. reflexivity. Qed.

Lemma lossless_mono elem n kBits N (ok ok' : Z -> Prop) p u : (forall x, ok' x -> ok x) ->
  lossless elem n kBits N ok p u -> lossless elem n kBits N ok' p u.
Proof. intros H L raw packed0 H1 H2 H3. apply L; auto. eapply Forall_impl; eauto. Qed.
Lemma onto_mono elem n kBits N (ok ok' : Z -> Prop) p u : (forall x, ok x -> ok' x) ->
  onto elem n kBits N ok p u -> onto elem n kBits N ok' p u.
Proof.
  intros H L code out0 H1 H2 H3. destruct (L code out0 H1 H2 H3) as (vals & a & b & cc). exists vals.
  split; [exact a|]. split; [eapply Forall_impl; eauto|exact cc].
Qed.
Lemma okv_fits elem frame kBits x : 0 <= kBits <= elem -> okv elem frame kBits false x <-> fits kBits x.
Proof.
  intros H. unfold okv, fits. split; [lia|]. intros R. split; [|lia].
  assert (2 ^ kBits <= 2 ^ elem) by (apply Z.pow_le_mono_r; lia). lia.
Qed.

Lemma pack8_ok kBits : 1 <= kBits <= 8 -> exists pk un, pack8 kBits = Some pk /\ unpack8 kBits = Some un /\
  forall le N, 0 < N -> (kBits < 8 -> N mod 2 = 0) ->
    lossless 8 8 kBits N (fits kBits) (run le 8 N pk 0) (run le 8 N un 0) /\
    onto 8 8 kBits N (fits kBits) (run le 8 N pk 0) (run le 8 N un 0).
Proof.
  intros H. assert (C := check8). rewrite forallb_forall in C. specialize (C kBits (in_zrange 1 8 kBits H)).
  apply andb_true_iff in C. destruct C as [C Cc].
  destruct (codec_check_sound _ _ _ _ _ _ C ltac:(lia) ltac:(lia) ltac:(lia)) as (pk & un & E1 & E2 & T).
  exists pk, un. split; auto. split; auto. intros le N HN Hev.
  rewrite E1 in Cc. apply eqb_prop in Cc.
  destruct (T le N 0 HN) as [A B]. { intros e. rewrite e in Cc. symmetry in Cc. apply Z.ltb_lt in Cc. auto. }
  split; [eapply lossless_mono; [|exact A]|eapply onto_mono; [|exact B]]; intros x; apply okv_fits; lia.
Qed.
Lemma pack16_ok kBits : 1 <= kBits <= 16 -> kBits <> 11 -> kBits <> 13 ->
  exists pk un, pack16 kBits = Some pk /\ unpack16 kBits = Some un /\
  forall le N, 0 < N ->
    lossless 16 16 kBits N (fits kBits) (run le 16 N pk 0) (run le 16 N un 0) /\
    onto 16 16 kBits N (fits kBits) (run le 16 N pk 0) (run le 16 N un 0).
Proof.
  intros H h11 h13. assert (C := check16). rewrite forallb_forall in C. specialize (C kBits (in_zrange 1 16 kBits H)).
  rewrite (proj2 (Z.eqb_neq _ _) h11), (proj2 (Z.eqb_neq _ _) h13) in C. cbn [orb] in C.
  apply andb_true_iff in C. destruct C as [C Cc].
  destruct (codec_check_sound _ _ _ _ _ _ C ltac:(lia) ltac:(lia) ltac:(lia)) as (pk & un & E1 & E2 & T).
  exists pk, un. split; auto. split; auto. intros le N HN.
  rewrite E1 in Cc. apply negb_true_iff in Cc.
  destruct (T le N 0 HN) as [A B]. { intros e. congruence. }
  split; [eapply lossless_mono; [|exact A]|eapply onto_mono; [|exact B]]; intros x; apply okv_fits; lia.
Qed.

Lemma mk_cast o p : mk o = Some p -> cast p = false.
Proof. unfold mk. destruct o; cbn; [|discriminate]. intros E. injection E as <-. reflexivity. Qed.

Lemma pack32_ok kBits for_ : 1 <= kBits <= 32 -> exists pk un, pack32 for_ kBits = Some pk /\ unpack32 for_ kBits = Some un /\
  forall le N frame, 0 < N ->
    let ok := if for_ then fits_frame 32 kBits frame else fits kBits in
    lossless 32 32 kBits N ok (run le 32 N pk frame) (run le 32 N un frame) /\
    onto 32 32 kBits N ok (run le 32 N pk frame) (run le 32 N un frame).
Proof.
  intros H. assert (C := check32). rewrite forallb_forall in C. specialize (C for_ ltac:(destruct for_; cbn; auto)).
  rewrite forallb_forall in C. specialize (C kBits (in_zrange 1 32 kBits H)).
  destruct (codec_check_sound _ _ _ _ _ _ C ltac:(lia) ltac:(lia) ltac:(lia)) as (pk & un & E1 & E2 & T).
  exists pk, un. split; auto. split; auto. intros le N frame HN ok.
  assert (Cc : cast pk = false) by (eapply mk_cast; exact E1).
  destruct (T le N frame HN) as [A B]. { intros e. congruence. }
  unfold ok. destruct for_.
  - split; [eapply lossless_mono; [|exact A]|eapply onto_mono; [|exact B]]; intros x Hx; exact Hx.
  - split; [eapply lossless_mono; [|exact A]|eapply onto_mono; [|exact B]]; intros x; apply okv_fits; lia.
Qed.
Lemma pack64_ok kBits for_ : 1 <= kBits <= 64 -> exists pk un, pack64 for_ kBits = Some pk /\ unpack64 for_ kBits = Some un /\
  forall le N frame, 0 < N ->
    let ok := if for_ then fits_frame 64 kBits frame else fits kBits in
    lossless 64 64 kBits N ok (run le 64 N pk frame) (run le 64 N un frame) /\
    onto 64 64 kBits N ok (run le 64 N pk frame) (run le 64 N un frame).
Proof.
  intros H. assert (C := check64). rewrite forallb_forall in C. specialize (C for_ ltac:(destruct for_; cbn; auto)).
  rewrite forallb_forall in C. specialize (C kBits (in_zrange 1 64 kBits H)).
  destruct (codec_check_sound _ _ _ _ _ _ C ltac:(lia) ltac:(lia) ltac:(lia)) as (pk & un & E1 & E2 & T).
  exists pk, un. split; auto. split; auto. intros le N frame HN ok.
  assert (Cc : cast pk = false) by (eapply mk_cast; exact E1).
  destruct (T le N frame HN) as [A B]. { intros e. congruence. }
  unfold ok. destruct for_.
  - split; [eapply lossless_mono; [|exact A]|eapply onto_mono; [|exact B]]; intros x Hx; exact Hx.
  - split; [eapply lossless_mono; [|exact A]|eapply onto_mono; [|exact B]]; intros x; apply okv_fits; lia.
Qed.

(** ** Pack16<11>, Pack16<13>: the vectors in [ks] of values < 2^b survive. *)
Definition restore_check (b kBits : Z) (ks : list Z) (p u : option prog) : bool :=
  match p, u with
  | Some pk, Some un => negb (cast pk) && negb (cast un) && check 16 (raw_desc 16 false 16 b 16) 16 kBits is_bits ks pk un
  | _, _ => false
  end.
Lemma restore_sound b kBits ks p u : restore_check b kBits ks p u = true -> 0 <= b <= 16 -> 0 <= kBits <= 16 ->
  exists pk un, p = Some pk /\ u = Some un /\ forall le N, 0 < N ->
    restores 16 kBits N (fits b) ks (run le 16 N pk 0) (run le 16 N un 0).
Proof.
  intros H Hb Hk. unfold restore_check in H. destruct p as [pk|]; [|discriminate]. destruct u as [un|]; [|discriminate].
  rewrite !andb_true_iff in H. destruct H as [[H1 H2] H3]. apply negb_true_iff in H1. apply negb_true_iff in H2.
  exists pk, un. split; auto. split; auto. intros le N HN raw packed0 out0 Lr Ok Lp Lo.
  assert (Ok' : Forall (okv 16 0 b false) (firstn (Z.to_nat (16 * N)) raw)).
  { eapply Forall_impl; [|exact Ok]. intros x. apply okv_fits; lia. }
  assert (I : forall inp sv v, is_bits sv = true -> vden 16 N false 0 inp sv v -> Forall (fun x => 0 <= x < 2 ^ 16) (enc le false v)).
  { intros. eapply (is_bits_elems le 16 16 N false 0 false); eauto; intros; discriminate. }
  destruct (two_way le 16 16 N false 0 false ltac:(lia) eq_refl ltac:(discriminate) HN ltac:(discriminate)
    pk un false b 16 kBits is_bits ks _ raw packed0 H1 H2 ltac:(auto) Hb ltac:(lia) ltac:(lia) H3 I Lr Ok' Lp)
    as (code & Lc & _ & E1 & R).
  destruct (R (skipn (Z.to_nat (kBits * N)) packed0) out0 Lo) as (bb & E2 & Lb & _ & Kk).
  eexists _, bb. split; [exact E1|]. split; [exact E2|]. split; [exact Lb|].
  intros k Hkk. destruct (Kk k Hkk) as (w & A & B). unfold loadu in A, B. unfold take, drop.
  destruct (_ && _); [|discriminate]. destruct ((0 <=? _) && (_ <=? zlen bb)); [|discriminate]. congruence.
Qed.

Lemma check11 : restore_check 11 11 (zrange 0 14) (pack16 11) (unpack16 11) = true /\
  restore_check 8 11 (zrange 0 15) (pack16 11) (unpack16 11) = true.
Proof. split; vm_compute; reflexivity. Qed.
Lemma check13 : restore_check 13 13 (zrange 0 7) (pack16 13) (unpack16 13) = true /\
  restore_check 6 13 (zrange 0 15) (pack16 13) (unpack16 13) = true.
Proof. split; vm_compute; reflexivity. Qed.

(** Counterexamples, 128-bit vectors (8 u16 lanes). *)
Definition vecs (f : Z -> Z) : list Z := flat_map (fun k => repeat (f k) 8) (zrange 0 15).
Definition zeros (n : nat) : list Z := repeat 0 n.
Definition bad11 : list Z := vecs (fun k => if k =? 13 then 0x400 else 0).
Definition bad13 : list Z := vecs (fun k => if k =? 6 then 0x1F00 else 0).

Definition round (kBits : Z) (raw : list Z) : option (list Z) :=
  match pack16 kBits, unpack16 kBits with
  | Some pk, Some un =>
      match run true 16 8 pk 0 raw (zeros 208) with
      | Some packed => run true 16 8 un 0 packed (zeros 128)
      | None => None
      end
  | _, _ => None
  end.
Lemma bad11_ok : forallb (fun x => (0 <=? x) && (x <? 2 ^ 11)) bad11 = true /\
  round 11 bad11 = Some (vecs (fun k => if k =? 13 then 0x400 else if k =? 15 then 0x100 else 0)).
Proof. split; vm_compute; reflexivity. Qed.
Lemma bad13_ok : forallb (fun x => (0 <=? x) && (x <? 2 ^ 13)) bad13 = true /\
  round 13 bad13 = Some (vecs (fun k => if (k =? 6) || (k =? 8) then 0x1F00 else 0)).
Proof. split; vm_compute; reflexivity. Qed.

(** Pack16<13>::Pack maps two different inputs to the same output. *)
Definition clash13_a : list Z := vecs (fun k => if k =? 15 then 0x40 else 0).
Definition clash13_b : list Z := vecs (fun k => if k =? 15 then 0x40 else if k =? 10 then 0x800 else 0).
Definition packed13 (raw : list Z) : option (list Z) :=
  match pack16 13 with Some pk => run true 16 8 pk 0 raw (zeros 104) | None => None end.
Lemma clash13_ok : forallb (fun x => (0 <=? x) && (x <? 2 ^ 13)) (clash13_a ++ clash13_b)%list = true /\
  (match packed13 clash13_a with Some _ => true | None => false end) = true /\
  packed13 clash13_a = packed13 clash13_b.
Proof. split; [|split]; vm_compute; reflexivity. Qed.
