(** C79: LoadInterleaved2/3/4 and StoreInterleaved2/3/4. *)
From Coq Require Import ZArith List Bool Lia.
From Verif Require Import Word Vec_Model Vec_Proofs Interleave_Model Interleave_Proofs.
Import ListNotations.
Local Open Scope Z_scope.

(** ** specification *)
(** lane i of a vector, or element i of an array: the bytes i*s .. i*s+s-1 *)
Definition element (s i : nat) (bytes : list Z) : list Z := firstn s (skipn (i * s) bytes).
(** lane sizes 1, 2, 4, 8 bytes; vectors of one, two or four 16-byte blocks, or of 1, 2, 4 or 8 bytes *)
Definition shape (s nb K : nat) : Prop :=
  (nb = 16%nat /\ (K = 1 \/ K = 2 \/ K = 4)%nat /\ (s = 1 \/ s = 2 \/ s = 4 \/ s = 8)%nat) \/
  (K = 1%nat /\ ((nb = 8%nat /\ (s = 1 \/ s = 2 \/ s = 4 \/ s = 8)%nat) \/ (nb = 4%nat /\ (s = 1 \/ s = 2 \/ s = 4)%nat) \/ (nb = 2%nat /\ (s = 1 \/ s = 2)%nat) \/ (nb = 1%nat /\ s = 1%nat))).
(** a vector of that shape *)
Definition is_vec (nb K : nat) (v : vec) : Prop := length v = K /\ Forall (fun b => length b = nb) v.
(** the three functions of each kind *)
Definition load_interleaved (k s nb K : nat) (mem : list Z) (p : Z) : option (list vec) :=
  if (k =? 2)%nat then load_interleaved2 s nb K mem p else if (k =? 3)%nat then load_interleaved3 s nb K mem p else load_interleaved4 s nb K mem p.
Definition store_interleaved (s nb K : nat) (g : nat -> list Z) (mem : list Z) (p : Z) (vs : list vec) : option (list Z) :=
  match vs with
  | [v0; v1] => store_interleaved2 s nb K mem p v0 v1
  | [v0; v1; v2] => store_interleaved3 s nb K g mem p v0 v1 v2
  | [v0; v1; v2; v3] => store_interleaved4 s nb K g mem p v0 v1 v2 v3
  | _ => None
  end.

(** ** proofs *)
Lemma shape_cases s nb K : shape s nb K -> (okcfg s nb /\ okK nb K) \/ (K = 1%nat /\ nb = s).
Proof. unfold shape, okcfg, okK. lia. Qed.
Lemma shape_cases2 s nb K : shape s nb K -> (nb = 16%nat /\ full16 s /\ okK16 K) \/ (K = 1%nat /\ okpart s nb).
Proof. unfold shape, full16, okK16, okpart. lia. Qed.
Lemma shape_div s nb K : shape s nb K -> (nb / s * s = nb /\ 0 < s)%nat.
Proof.
  intros [(-> & _ & O)|(_ & O)]; repeat match goal with H : _ \/ _ |- _ => destruct H | H : _ /\ _ |- _ => destruct H end; subst; split; try reflexivity; lia.
Qed.
Lemma split_region (mem : list Z) p n : 0 <= p -> p + Z.of_nat n <= zlen mem ->
  exists a r c, mem = a ++ r ++ c /\ zlen a = p /\ length r = n /\ skipn (Z.to_nat p) mem = r ++ c.
Proof.
  intros H0 H1. unfold zlen in H1. exists (firstn (Z.to_nat p) mem), (firstn n (skipn (Z.to_nat p) mem)), (skipn n (skipn (Z.to_nat p) mem)).
  rewrite !firstn_skipn. split; [reflexivity|]. split; [unfold zlen; rewrite firstn_length; lia|]. split; [rewrite firstn_length, skipn_length; lia|reflexivity].
Qed.
Lemma load_lists k s nb K (a r c : list Z) : shape s nb K -> (k = 2 \/ k = 3 \/ k = 4)%nat -> length r = (k * (K * nb))%nat ->
  exists vs, load_interleaved k s nb K (a ++ r ++ c) (zlen a) = Some vs /\ length vs = k /\
    forall j, (j < k)%nat -> is_vec nb K (nth j vs []) /\ concat (nth j vs []) = deint s k j (K * (nb / s)) r.
Proof.
  intros S Hk HL. destruct (shape_div _ _ _ S) as [ND SP]. destruct (shape_cases _ _ _ S) as [[O OK]|[-> ->]].
  - destruct Hk as [->|[->| ->]]; unfold load_interleaved; cbn [Nat.eqb].
    + destruct (load2_main s nb K a r c O OK HL) as (v0 & v1 & E & C0 & C1 & V0 & V1). exists [v0; v1]. split; [exact E|]. split; [reflexivity|].
      intros j Hj. destruct j as [|[|j]]; [split; assumption|split; assumption|lia].
    + destruct (load3_main s nb K a r c O OK HL) as (v0 & v1 & v2 & E & C0 & C1 & C2 & V0 & V1 & V2). exists [v0; v1; v2]. split; [exact E|]. split; [reflexivity|].
      intros j Hj. destruct j as [|[|[|j]]]; [split; assumption|split; assumption|split; assumption|lia].
    + destruct (load4_main s nb K a r c O OK HL) as (v0 & v1 & v2 & v3 & E & C0 & C1 & C2 & C3 & V0 & V1 & V2 & V3). exists [v0; v1; v2; v3]. split; [exact E|]. split; [reflexivity|].
      intros j Hj. destruct j as [|[|[|[|j]]]]; [split; assumption|split; assumption|split; assumption|split; assumption|lia].
  - destruct (single_load s a r c SP) as (E2 & E3 & E4).
    assert (DV : (1 * (s / s) = 1)%nat) by (rewrite Nat.div_same; lia). rewrite DV.
    assert (SV : forall x : block, length x = s -> is_vec s 1 [x]) by (intros x Hx; split; [reflexivity|repeat constructor; exact Hx]).
    assert (CE : forall m, concat [lane s m r] = deint s k m 1 r) by (intros m; unfold deint; cbn [concat seq flat_map]; rewrite Nat.mul_0_r; reflexivity).
    assert (LL : forall m, (m < k)%nat -> length (lane s m r) = s) by (intros m Hm; apply lane_length; rewrite HL; nia).
    destruct Hk as [->|[->| ->]]; unfold load_interleaved; cbn [Nat.eqb].
    + rewrite E2 by lia. eexists. split; [reflexivity|]. split; [reflexivity|]. intros j Hj.
      destruct j as [|[|j]]; [..|lia]; (split; [apply SV, LL; lia|apply CE]).
    + rewrite E3 by lia. eexists. split; [reflexivity|]. split; [reflexivity|]. intros j Hj.
      destruct j as [|[|[|j]]]; [..|lia]; (split; [apply SV, LL; lia|apply CE]).
    + rewrite E4 by lia. eexists. split; [reflexivity|]. split; [reflexivity|]. intros j Hj.
      destruct j as [|[|[|[|j]]]]; [..|lia]; (split; [apply SV, LL; lia|apply CE]).
Qed.
Lemma is_vec_len nb K v : is_vec nb K v -> length (concat v) = (K * nb)%nat.
Proof. intros [L F]. rewrite (concat_len nb) by exact F. unfold vec, block in *. lia. Qed.
Lemma store_lists s nb K g (a r c : list Z) vs : shape s nb K -> (forall j, length (g j) = (16 - nb)%nat) -> (length vs = 2 \/ length vs = 3 \/ length vs = 4)%nat ->
  Forall (is_vec nb K) vs -> length r = (length vs * (K * nb))%nat ->
  store_interleaved s nb K g (a ++ r ++ c) (zlen a) vs = Some (a ++ inter s (K * (nb / s)) (map (@concat Z) vs) ++ c).
Proof.
  intros S HG Hk HF HL. destruct (shape_cases2 _ _ _ S) as [(-> & O & OK)|[-> O]].
  - destruct Hk as [H|[H|H]]; rewrite H in HL.
    + destruct vs as [|v0 [|v1 [|]]]; try discriminate H. invF. apply store2_full; assumption.
    + destruct vs as [|v0 [|v1 [|v2 [|]]]]; try discriminate H. invF. apply store3_full; assumption.
    + destruct vs as [|v0 [|v1 [|v2 [|v3 [|]]]]]; try discriminate H. invF. apply store4_full; assumption.
  - assert (SV : forall v, is_vec nb 1 v -> exists x, v = [x] /\ length x = nb).
    { intros v [L F]. destruct v as [|x [|]]; try discriminate L. inversion F; subst. exists x. split; reflexivity. }
    rewrite Nat.mul_1_l in HL |- *.
    destruct Hk as [H|[H|H]]; rewrite H in HL.
    + destruct vs as [|v0 [|v1 [|]]]; try discriminate H. inversion HF as [|? ? V0 F0]; subst. inversion F0 as [|? ? V1 F1]; subst.
      destruct (SV _ V0) as (x & -> & HX). destruct (SV _ V1) as (y & -> & HY). cbn [map concat]. rewrite !app_nil_r. apply store2_part; assumption.
    + destruct vs as [|v0 [|v1 [|v2 [|]]]]; try discriminate H. inversion HF as [|? ? V0 F0]; subst. inversion F0 as [|? ? V1 F1]; subst. inversion F1 as [|? ? V2 F2]; subst.
      destruct (SV _ V0) as (x & -> & HX). destruct (SV _ V1) as (y & -> & HY). destruct (SV _ V2) as (z & -> & HZ). cbn [map concat]. rewrite !app_nil_r. apply store3_part; assumption.
    + destruct vs as [|v0 [|v1 [|v2 [|v3 [|]]]]]; try discriminate H. inversion HF as [|? ? V0 F0]; subst. inversion F0 as [|? ? V1 F1]; subst. inversion F1 as [|? ? V2 F2]; subst. inversion F2 as [|? ? V3 F3]; subst.
      destruct (SV _ V0) as (x & -> & HX). destruct (SV _ V1) as (y & -> & HY). destruct (SV _ V2) as (z & -> & HZ). destruct (SV _ V3) as (w & -> & HW). cbn [map concat]. rewrite !app_nil_r. apply store4_part; assumption.
Qed.
Lemma vec_eq nb K v w : is_vec nb K v -> is_vec nb K w -> concat v = concat w -> v = w.
Proof. intros [L1 F1] [L2 F2] E. rewrite <- (blocks_concat nb K v F1 L1), <- (blocks_concat nb K w F2 L2), E. reflexivity. Qed.

(** ** theorems *)
(** LoadInterleaved k at byte p: succeeds when the k vectors' worth of bytes is in bounds, and lane i of the j-th result is element k*i + j of the array *)
Theorem C79_load_interleaved : forall k s nb K mem p, shape s nb K -> (k = 2 \/ k = 3 \/ k = 4)%nat -> 0 <= p -> p + Z.of_nat (k * (K * nb)) <= zlen mem ->
  exists vs, load_interleaved k s nb K mem p = Some vs /\ length vs = k /\
    forall j, (j < k)%nat -> is_vec nb K (nth j vs []) /\
      forall i, (i < K * (nb / s))%nat -> element s i (concat (nth j vs [])) = element s (k * i + j) (skipn (Z.to_nat p) mem).
Proof.
  intros k s nb K mem p S Hk H0 H1. destruct (split_region mem p (k * (K * nb)) H0 H1) as (a & r & c & -> & <- & HL & HS). rewrite HS.
  destruct (load_lists k s nb K a r c S Hk HL) as (vs & E & LV & HV). exists vs. split; [exact E|]. split; [exact LV|].
  intros j Hj. destruct (HV j Hj) as [IV EC]. split; [exact IV|]. intros i Hi. rewrite EC. destruct (shape_div _ _ _ S) as [ND SP].
  change (lane s i (deint s k j (K * (nb / s)) r) = lane s (k * i + j) (r ++ c)).
  assert (LE : (k * (K * (nb / s)) * s = length r)%nat) by (rewrite HL, <- ND at 1; rewrite Nat.div_mul by lia; lia).
  rewrite deint_lane; [|exact Hj|lia|exact Hi]. symmetry. apply lane_app_l. rewrite <- LE. assert (k * i + j + 1 <= k * (K * (nb / s)))%nat by nia. apply Nat.mul_le_mono_r. assumption.
Qed.
(** it reads exactly that range: one byte less and it is out of bounds *)
Theorem C79_load_bounds : forall k s nb K mem p, (k = 2 \/ k = 3 \/ k = 4)%nat -> p < 0 \/ p + Z.of_nat (k * (K * nb)) > zlen mem -> load_interleaved k s nb K mem p = None.
Proof.
  intros k s nb K mem p Hk H. unfold load_interleaved. destruct Hk as [->|[->| ->]]; cbn [Nat.eqb]; [apply load2_none|apply load3_none|apply load4_none]; destruct H as [H|H]; [left; exact H|right; lia|left; exact H|right; lia|left; exact H|right; lia].
Qed.
(** StoreInterleaved k: element k*i + j of the array is lane i of the j-th vector; no other byte changes, whatever the unused register bytes hold *)
Theorem C79_store_interleaved : forall s nb K g mem p vs, shape s nb K -> (forall j, length (g j) = (16 - nb)%nat) ->
  (length vs = 2 \/ length vs = 3 \/ length vs = 4)%nat -> Forall (is_vec nb K) vs -> 0 <= p -> p + Z.of_nat (length vs * (K * nb)) <= zlen mem ->
  exists mem', store_interleaved s nb K g mem p vs = Some mem' /\ length mem' = length mem /\
    (forall i j, (i < K * (nb / s))%nat -> (j < length vs)%nat -> element s (length vs * i + j) (skipn (Z.to_nat p) mem') = element s i (concat (nth j vs []))) /\
    (forall q, (q < Z.to_nat p \/ Z.to_nat p + length vs * (K * nb) <= q)%nat -> nth_error mem' q = nth_error mem q).
Proof.
  intros s nb K g mem p vs S HG Hk HF H0 H1. destruct (split_region mem p _ H0 H1) as (a & r & c & -> & <- & HL & _).
  rewrite (store_lists s nb K g a r c vs S HG Hk HF HL). eexists. split; [reflexivity|]. destruct (shape_div _ _ _ S) as [ND SP].
  assert (FL : Forall (fun v => (K * (nb / s) * s <= length v)%nat) (map (@concat Z) vs)).
  { apply Forall_map. eapply Forall_impl; [|exact HF]. intros v Hv. apply is_vec_len in Hv. cbn beta. rewrite Hv. nia. }
  set (x := inter s (K * (nb / s)) (map (@concat Z) vs)).
  assert (LX : length x = length r).
  { unfold x. rewrite inter_length by exact FL. rewrite map_length, HL. transitivity (length vs * (K * (nb / s * s)))%nat; [unfold vec, block; nia|rewrite ND; reflexivity]. }
  split; [rewrite !app_length, LX; reflexivity|].
  assert (ZA : Z.to_nat (zlen a) = length a) by (unfold zlen; lia). rewrite ZA.
  split.
  - intros i j Hi Hj. rewrite skipn_app, skipn_all, Nat.sub_diag. cbn [app skipn].
    change (lane s (length vs * i + j) (x ++ c) = lane s i (concat (nth j vs []))).
    rewrite lane_app_l.
    + unfold x. rewrite <- (map_length (@concat Z) vs) at 1. rewrite inter_lane; [|exact FL|exact Hi|rewrite map_length; exact Hj].
      change (@nil Z) with (concat (@nil (list Z))). rewrite map_nth. reflexivity.
    + rewrite LX, HL. assert (length vs * i + j + 1 <= length vs * (K * (nb / s)))%nat by nia. nia.
  - intros q Hq. rewrite <- HL in Hq. destruct Hq as [Hq|Hq].
    + rewrite !nth_error_app1 by exact Hq. reflexivity.
    + rewrite !(nth_error_app2 a) by lia. rewrite !nth_error_app2 by lia. f_equal. lia.
Qed.
(** storing and loading again gives the same vectors, and loading and storing at the same place changes nothing *)
Theorem C79_round_trip : forall s nb K g mem p vs, shape s nb K -> (forall j, length (g j) = (16 - nb)%nat) ->
  (length vs = 2 \/ length vs = 3 \/ length vs = 4)%nat -> Forall (is_vec nb K) vs -> 0 <= p -> p + Z.of_nat (length vs * (K * nb)) <= zlen mem ->
  (exists mem', store_interleaved s nb K g mem p vs = Some mem' /\ load_interleaved (length vs) s nb K mem' p = Some vs) /\
  (load_interleaved (length vs) s nb K mem p = Some vs -> store_interleaved s nb K g mem p vs = Some mem).
Proof.
  intros s nb K g mem p vs S HG Hk HF H0 H1. destruct (split_region mem p _ H0 H1) as (a & r & c & -> & <- & HL & _).
  rewrite (store_lists s nb K g a r c vs S HG Hk HF HL). destruct (shape_div _ _ _ S) as [ND SP].
  assert (FL : Forall (fun v => (K * (nb / s) * s <= length v)%nat) (map (@concat Z) vs)).
  { apply Forall_map. eapply Forall_impl; [|exact HF]. intros v Hv. apply is_vec_len in Hv. cbn beta. rewrite Hv. nia. }
  set (x := inter s (K * (nb / s)) (map (@concat Z) vs)).
  assert (LX : length x = (length vs * (K * nb))%nat).
  { unfold x. rewrite inter_length by exact FL. rewrite map_length. transitivity (length vs * (K * (nb / s * s)))%nat; [unfold vec, block; nia|rewrite ND; reflexivity]. }
  assert (LE : forall y : list Z, length y = length x -> (length vs * (K * (nb / s)) * s = length y)%nat) by (intros y ->; rewrite LX; transitivity (length vs * (K * (nb / s * s)))%nat; [unfold vec, block; nia|rewrite ND; reflexivity]).
  split.
  - eexists. split; [reflexivity|]. destruct (load_lists (length vs) s nb K a x c S Hk LX) as (ws & E & LW & HW). rewrite E. f_equal.
    apply nth_ext with (d := []) (d' := []); [exact LW|]. intros j Hj. rewrite LW in Hj. destruct (HW j Hj) as [IW CW].
    assert (IV : is_vec nb K (nth j vs [])) by (rewrite Forall_forall in HF; apply HF, nth_In, Hj).
    apply (vec_eq nb K); [exact IW|exact IV|]. rewrite CW.
    transitivity (flat_map (fun i => lane s i (concat (nth j vs []))) (seq 0 (K * (nb / s)))).
    + unfold deint. apply flat_map_ext_in. intros i Hi. apply in_seq in Hi. unfold x. rewrite <- (map_length (@concat Z) vs) at 1.
      rewrite inter_lane; [|exact FL|lia|rewrite map_length; exact Hj]. change (@nil Z) with (concat (@nil (list Z))). rewrite map_nth. reflexivity.
    + assert (E2 := fun l (H : length l = (K * (nb / s) * s)%nat) => concat_blocks s (K * (nb / s)) l H).
      specialize (E2 (concat (nth j vs []))). rewrite flat_map_concat_map. apply E2. rewrite (is_vec_len nb K) by exact IV. transitivity (K * (nb / s * s))%nat; [rewrite ND; reflexivity|nia].
  - intros E. destruct (load_lists (length vs) s nb K a r c S Hk HL) as (ws & E2 & LW & HW). rewrite E in E2. injection E2 as <-.
    do 3 f_equal. unfold x.
    transitivity (flat_map (fun i => flat_map (fun j => lane s (length vs * i + j) r) (seq 0 (length vs))) (seq 0 (K * (nb / s)))).
    + unfold inter. apply flat_map_ext_in. intros i Hi. apply in_seq in Hi. rewrite flat_map_map_seq, map_length. apply flat_map_ext_in. intros j Hj. apply in_seq in Hj.
      change (@nil Z) with (concat (@nil (list Z))). rewrite map_nth. destruct (HW j) as [_ CW]; [lia|]. etransitivity; [apply f_equal; exact CW|]. rewrite deint_lane; [reflexivity|lia| |lia]. rewrite (LE r) by lia. lia.
    + assert (G : forall n m, flat_map (fun i => flat_map (fun j => lane s (m * i + j) r) (seq 0 m)) (seq 0 n) = flat_map (fun i => lane s i r) (seq 0 (n * m))).
      { intros n m. induction n as [|n IH]; [reflexivity|]. rewrite seq_S, flat_map_app, IH. cbn [flat_map Nat.add]. rewrite app_nil_r.
        rewrite Nat.mul_succ_l. rewrite seq_app, flat_map_app. f_equal. rewrite (flat_map_seq _ (0 + n * m)). apply flat_map_ext_in. intros i _. f_equal. lia. }
      rewrite G. rewrite flat_map_concat_map. apply (concat_blocks s (K * (nb / s) * length vs) r). rewrite <- (LE r) by lia. lia.
Qed.
(** concrete vectors: four 32-byte vectors of 16-bit lanes, two-lane partial vectors *)
Theorem C79_nonvacuous :
  (let mem := map Z.of_nat (seq 0 140) in
   match load_interleaved 4 2 16 2 mem 5 with
   | Some vs => map (fun v => firstn 4 (concat v)) vs = [[5; 6; 13; 14]; [7; 8; 15; 16]; [9; 10; 17; 18]; [11; 12; 19; 20]] /\ store_interleaved 2 16 2 (fun _ => []) mem 5 vs = Some mem
   | None => False
   end) /\
  store_interleaved 2 4 1 (fun _ => repeat 77 12) (repeat 0 14) 1 [[[1; 2; 3; 4]]; [[5; 6; 7; 8]]; [[9; 10; 11; 12]]] = Some [0; 1; 2; 5; 6; 9; 10; 3; 4; 7; 8; 11; 12; 0] /\
  shape 2 16 2 /\ shape 2 4 1.
Proof. unfold shape. repeat split; try reflexivity; lia. Qed.
