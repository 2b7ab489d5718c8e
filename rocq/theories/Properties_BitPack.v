(** C37: bit packing loses nothing.  [run le elem N p frame src dst] executes a
    transcribed Pack / Unpack body on arrays; see BitPack_Spec for the meaning
    of [lossless] and [onto]. *)
From Coq Require Import ZArith List Bool Lia.
From Verif Require Import BitPack_Model BitPack_Code BitPack_Spec BitPack_Sym BitPack_Proofs BitPack_Check.
Import ListNotations.
Local Open Scope Z_scope.

(** Pack8<kBits>, every kBits, every vector length, either byte order.  (N even:
    the code reinterprets pairs of u8 lanes as u16, except for kBits = 8.) *)
Theorem C37_pack8 : forall kBits, 1 <= kBits <= 8 ->
  exists pk un, pack8 kBits = Some pk /\ unpack8 kBits = Some un /\
  forall le N, 0 < N -> (kBits < 8 -> N mod 2 = 0) ->
    lossless 8 8 kBits N (fits kBits) (run le 8 N pk 0) (run le 8 N un 0) /\
    onto 8 8 kBits N (fits kBits) (run le 8 N pk 0) (run le 8 N un 0).
Proof. exact pack8_ok. Qed.
Print Assumptions C37_pack8.

(** Pack16<kBits> for every kBits except 11 and 13, which the code gets wrong. *)
Theorem C37_pack16_partial : forall kBits, 1 <= kBits <= 16 -> kBits <> 11 -> kBits <> 13 ->
  exists pk un, pack16 kBits = Some pk /\ unpack16 kBits = Some un /\
  forall le N, 0 < N ->
    lossless 16 16 kBits N (fits kBits) (run le 16 N pk 0) (run le 16 N un 0) /\
    onto 16 16 kBits N (fits kBits) (run le 16 N pk 0) (run le 16 N un 0).
Proof. exact pack16_ok. Qed.
Print Assumptions C37_pack16_partial.

(** Pack16<11> does not round-trip: with every value of vector 13 equal to 0x400
    and the others 0, Unpack(Pack(raw)) has 0x100 in vector 15. *)
Theorem C37_pack16_11_refuted :
  exists pk un raw packed0 out0 packed out,
    pack16 11 = Some pk /\ unpack16 11 = Some un /\
    len raw = 16 * 8 /\ Forall (fits 11) raw /\
    run true 16 8 pk 0 raw packed0 = Some packed /\ run true 16 8 un 0 packed out0 = Some out /\
    len out = len raw /\ nth_error raw 120 = Some 0 /\ nth_error out 120 = Some 0x100.
Proof.
  destruct bad11_ok as [F R]. unfold round in R.
  destruct (pack16 11) as [pk|] eqn:Ep; [|discriminate]. destruct (unpack16 11) as [un|] eqn:Eu; [|discriminate].
  destruct (run true 16 8 pk 0 bad11 (zeros 208)) as [packed|] eqn:Er; [|discriminate].
  exists pk, un, bad11, (zeros 208), (zeros 128), packed, (vecs (fun k => if k =? 13 then 0x400 else if k =? 15 then 0x100 else 0)).
  split; [reflexivity|]. split; [reflexivity|]. split; [reflexivity|].
  split. { apply Forall_forall. intros x Hx. rewrite forallb_forall in F. specialize (F x Hx). apply andb_true_iff in F.
    destruct F as [f1 f2]. apply Z.leb_le in f1. apply Z.ltb_lt in f2. split; assumption. }
  split; [exact Er|]. split; [exact R|]. repeat split; reflexivity.
Qed.
Print Assumptions C37_pack16_11_refuted.

(** What does hold for Pack16<11>: the first 15 of the 16 vectors survive, and
    all 16 if every value is below 2^8. *)
Theorem C37_pack16_11_partial :
  exists pk un, pack16 11 = Some pk /\ unpack16 11 = Some un /\
  forall le N, 0 < N ->
    restores 16 11 N (fits 11) (zrange 0 14) (run le 16 N pk 0) (run le 16 N un 0) /\
    restores 16 11 N (fits 8) (zrange 0 15) (run le 16 N pk 0) (run le 16 N un 0).
Proof.
  destruct check11 as [A B].
  destruct (restore_sound _ _ _ _ _ A ltac:(lia) ltac:(lia)) as (pk & un & E1 & E2 & TA).
  destruct (restore_sound _ _ _ _ _ B ltac:(lia) ltac:(lia)) as (pk' & un' & E1' & E2' & TB).
  rewrite E1 in E1'. rewrite E2 in E2'. injection E1' as <-. injection E2' as <-.
  exists pk, un. auto.
Qed.
Print Assumptions C37_pack16_11_partial.

(** Pack16<13> does not round-trip (vector 8 comes back as vector 6), and no
    correct Unpack could exist for its Pack: two different inputs collide. *)
Theorem C37_pack16_13_refuted :
  (exists pk un raw packed0 out0 packed out,
    pack16 13 = Some pk /\ unpack16 13 = Some un /\
    len raw = 16 * 8 /\ Forall (fits 13) raw /\
    run true 16 8 pk 0 raw packed0 = Some packed /\ run true 16 8 un 0 packed out0 = Some out /\
    len out = len raw /\ nth_error raw 64 = Some 0 /\ nth_error out 64 = Some 0x1F00) /\
  (exists pk raw1 raw2 packed0 packed,
    pack16 13 = Some pk /\ len raw1 = 16 * 8 /\ len raw2 = 16 * 8 /\
    Forall (fits 13) raw1 /\ Forall (fits 13) raw2 /\
    run true 16 8 pk 0 raw1 packed0 = Some packed /\ run true 16 8 pk 0 raw2 packed0 = Some packed /\
    raw1 <> raw2).
Proof.
  split.
  - destruct bad13_ok as [F R]. unfold round in R.
    destruct (pack16 13) as [pk|] eqn:Ep; [|discriminate]. destruct (unpack16 13) as [un|] eqn:Eu; [|discriminate].
    destruct (run true 16 8 pk 0 bad13 (zeros 208)) as [packed|] eqn:Er; [|discriminate].
    exists pk, un, bad13, (zeros 208), (zeros 128), packed, (vecs (fun k => if (k =? 6) || (k =? 8) then 0x1F00 else 0)).
    split; [reflexivity|]. split; [reflexivity|]. split; [reflexivity|].
    split. { apply Forall_forall. intros x Hx. rewrite forallb_forall in F. specialize (F x Hx). apply andb_true_iff in F.
      destruct F as [f1 f2]. apply Z.leb_le in f1. apply Z.ltb_lt in f2. split; assumption. }
    split; [exact Er|]. split; [exact R|]. repeat split; reflexivity.
  - destruct clash13_ok as (F & S & E). unfold packed13 in S, E.
    destruct (pack16 13) as [pk|] eqn:Ep; [|discriminate].
    destruct (run true 16 8 pk 0 clash13_a (zeros 104)) as [packed|] eqn:Er; [|discriminate].
    exists pk, clash13_a, clash13_b, (zeros 104), packed.
    assert (G : Forall (fits 13) (clash13_a ++ clash13_b)).
    { apply Forall_forall. intros x Hx. rewrite forallb_forall in F. specialize (F x Hx). apply andb_true_iff in F.
      destruct F as [f1 f2]. apply Z.leb_le in f1. apply Z.ltb_lt in f2. split; assumption. }
    apply Forall_app in G. destruct G as [G1 G2].
    split; [reflexivity|]. split; [reflexivity|]. split; [reflexivity|]. split; [exact G1|]. split; [exact G2|].
    split; [exact Er|]. split; [symmetry; exact E|]. intros H. assert (K : nth_error clash13_a 80 = nth_error clash13_b 80) by now rewrite H.
    vm_compute in K. discriminate.
Qed.
Print Assumptions C37_pack16_13_refuted.

(** What does hold for Pack16<13>: vectors 0..7 survive, and all 16 if every
    value is below 2^6. *)
Theorem C37_pack16_13_partial :
  exists pk un, pack16 13 = Some pk /\ unpack16 13 = Some un /\
  forall le N, 0 < N ->
    restores 16 13 N (fits 13) (zrange 0 7) (run le 16 N pk 0) (run le 16 N un 0) /\
    restores 16 13 N (fits 6) (zrange 0 15) (run le 16 N pk 0) (run le 16 N un 0).
Proof.
  destruct check13 as [A B].
  destruct (restore_sound _ _ _ _ _ A ltac:(lia) ltac:(lia)) as (pk & un & E1 & E2 & TA).
  destruct (restore_sound _ _ _ _ _ B ltac:(lia) ltac:(lia)) as (pk' & un' & E1' & E2' & TB).
  rewrite E1 in E1'. rewrite E2 in E2'. injection E1' as <-. injection E2' as <-.
  exists pk, un. auto.
Qed.
Print Assumptions C37_pack16_13_partial.

(** Pack32 / Pack64: every kBits, plain and frame-of-reference. *)
Theorem C37_pack32 : forall kBits for_, 1 <= kBits <= 32 ->
  exists pk un, pack32 for_ kBits = Some pk /\ unpack32 for_ kBits = Some un /\
  forall le N frame, 0 < N ->
    let ok := if for_ then fits_frame 32 kBits frame else fits kBits in
    lossless 32 32 kBits N ok (run le 32 N pk frame) (run le 32 N un frame) /\
    onto 32 32 kBits N ok (run le 32 N pk frame) (run le 32 N un frame).
Proof. exact pack32_ok. Qed.
Print Assumptions C37_pack32.

Theorem C37_pack64 : forall kBits for_, 1 <= kBits <= 64 ->
  exists pk un, pack64 for_ kBits = Some pk /\ unpack64 for_ kBits = Some un /\
  forall le N frame, 0 < N ->
    let ok := if for_ then fits_frame 64 kBits frame else fits kBits in
    lossless 64 64 kBits N ok (run le 64 N pk frame) (run le 64 N un frame) /\
    onto 64 64 kBits N ok (run le 64 N pk frame) (run le 64 N un frame).
Proof. exact pack64_ok. Qed.
Print Assumptions C37_pack64.

(** The hypotheses are met: 8 * 2 three-bit values, and 64-bit values in a frame
    that wraps around. *)
Example C37_pack8_case :
  match pack8 3, unpack8 3 with
  | Some pk, Some un =>
      let raw := [7; 0; 5; 2; 1; 6; 3; 4; 7; 7; 0; 1; 2; 5; 4; 3] in
      let r := run true 8 2 pk 0 raw (repeat 255 7) in
      Forall (fits 3) raw /\
      match r with
      | Some code => code = [191; 120; 5; 202; 209; 46; 255] /\ run true 8 2 un 0 code (repeat 9 17) = Some (raw ++ [9])
      | None => False
      end
  | _, _ => False
  end.
Proof.
  vm_compute. split. { repeat constructor; discriminate. } split; reflexivity.
Qed.
Example C37_pack64_case : Forall (fits_frame 64 5 (2 ^ 64 - 3)) [2 ^ 64 - 3; 2 ^ 64 - 1; 0; 28] /\ ~ fits_frame 64 5 (2 ^ 64 - 3) 29.
Proof.
  split. { repeat constructor; vm_compute; discriminate || reflexivity. }
  unfold fits_frame. vm_compute. intros [_ H]. discriminate.
Qed.
