(** Proofs about the topology model: packages, clusters, cores. *)
From Coq Require Import ZArith List Bool Lia Permutation.
From Verif Require Import Word Topo_Spec Topo_Model Topo_Proofs.
Import ListNotations.
Local Open Scope Z_scope.

(** ** Remapper *)
Definition ins (rm : list Z) (v : Z) : list Z := match index_of v rm with Some _ => rm | None => rm ++ [v] end.
Definition pos (v : Z) (rm : list Z) : Z := match index_of v rm with Some i => Z.of_nat i | None => 0 end.
Lemma index_of_some v rm i : index_of v rm = Some i -> nth_error rm i = Some v /\ (i < length rm)%nat.
Proof.
  revert i. induction rm as [|x rm IH]; intros i H; [discriminate H|]. cbn [index_of] in H. destruct (Z.eqb_spec x v) as [->|N].
  - injection H as <-. split; [reflexivity|cbn; lia].
  - destruct (index_of v rm) as [j|]; [|discriminate H]. injection H as <-. destruct (IH j eq_refl) as [H1 H2]. split; [exact H1|cbn; lia].
Qed.
Lemma index_of_none v rm : index_of v rm = None -> ~ In v rm.
Proof.
  induction rm as [|x rm IH]; intros H; [intros []|]. cbn [index_of] in H. destruct (Z.eqb_spec x v); [discriminate H|].
  destruct (index_of v rm); [discriminate H|]. intros [E|E]; [congruence|]. apply IH; [reflexivity|exact E].
Qed.
Lemma index_of_app v rm l i : index_of v rm = Some i -> index_of v (rm ++ l) = Some i.
Proof.
  revert i. induction rm as [|x rm IH]; intros i H; [discriminate H|]. cbn [index_of app] in *. destruct (x =? v); [exact H|].
  destruct (index_of v rm) as [j|]; [|discriminate H]. rewrite (IH j eq_refl). exact H.
Qed.
Lemma index_of_new v rm : index_of v rm = None -> index_of v (rm ++ [v]) = Some (length rm).
Proof.
  induction rm as [|x rm IH]; intros H; cbn [index_of app length] in *; [rewrite Z.eqb_refl; reflexivity|].
  destruct (x =? v); [discriminate H|]. destruct (index_of v rm); [discriminate H|]. rewrite IH by reflexivity. reflexivity.
Qed.
Lemma ins_has rm v : exists i, index_of v (ins rm v) = Some i.
Proof. unfold ins. destruct (index_of v rm) as [i|] eqn:E; [exists i; exact E|exists (length rm); apply index_of_new, E]. Qed.
Lemma ins_stable rm v w i : index_of w rm = Some i -> index_of w (ins rm v) = Some i.
Proof. intros H. unfold ins. destruct (index_of v rm); [exact H|apply index_of_app, H]. Qed.
Definition ins_all (rm vs : list Z) : list Z := fold_left ins vs rm.
Lemma ins_all_stable vs : forall rm w i, index_of w rm = Some i -> index_of w (ins_all rm vs) = Some i.
Proof. induction vs as [|v vs IH]; intros rm w i H; [exact H|]. cbn [ins_all fold_left]. apply IH, ins_stable, H. Qed.
Lemma ins_all_has vs : forall rm v, In v vs -> exists i, index_of v (ins_all rm vs) = Some i.
Proof.
  induction vs as [|w vs IH]; intros rm v H; [destruct H|]. cbn [ins_all fold_left]. destruct H as [->|H]; [|apply IH, H].
  destruct (ins_has rm v) as [i Hi]. exists i. apply ins_all_stable, Hi.
Qed.
Lemma ins_all_app rm a b : ins_all rm (a ++ b) = ins_all (ins_all rm a) b.
Proof. apply fold_left_app. Qed.
Lemma ins_length rm v : (length rm <= length (ins rm v) <= length rm + 1)%nat.
Proof. unfold ins. destruct (index_of v rm); [lia|]. rewrite app_length. cbn. lia. Qed.
Lemma ins_all_length vs : forall rm, (length rm <= length (ins_all rm vs) <= length rm + length vs)%nat.
Proof. induction vs as [|v vs IH]; intros rm; cbn [ins_all fold_left length]; [lia|]. pose proof (ins_length rm v). specialize (IH (ins rm v)). unfold ins_all in IH. lia. Qed.
(** every value kept was seen *)
Lemma ins_all_in vs : forall rm v, In v (ins_all rm vs) -> In v rm \/ In v vs.
Proof.
  induction vs as [|w vs IH]; intros rm v H; [left; exact H|]. cbn [ins_all fold_left] in H. apply IH in H. destruct H as [H|H]; [|right; right; exact H].
  unfold ins in H. destruct (index_of w rm); [left; exact H|]. apply in_app_or in H. destruct H as [H|[->|[]]]; [left; exact H|right; left; reflexivity].
Qed.
Lemma pos_inj rm v w i j : index_of v rm = Some i -> index_of w rm = Some j -> (pos v rm = pos w rm <-> v = w).
Proof.
  intros Hv Hw. unfold pos. rewrite Hv, Hw. split; [|congruence]. intros E. assert (i = j) by lia. subst. apply index_of_some in Hv, Hw. destruct Hv as [Hv _], Hw as [Hw _]. congruence.
Qed.
Lemma pos_range rm v i : index_of v rm = Some i -> 0 <= pos v rm < zl rm.
Proof. intros H. unfold pos, zl. rewrite H. apply index_of_some in H. lia. Qed.
(** the value at a position has that position *)
Lemma pos_at vs : forall i, (i < length (ins_all [] vs))%nat -> exists v, In v vs /\ pos v (ins_all [] vs) = Z.of_nat i.
Proof.
  assert (ND : NoDup (ins_all [] vs)).
  { assert (G : forall vs rm, NoDup rm -> NoDup (ins_all rm vs)).
    { clear. induction vs as [|v vs IH]; intros rm H; [exact H|]. cbn [ins_all fold_left]. apply IH. unfold ins. destruct (index_of v rm) eqn:E; [exact H|].
      apply index_of_none in E. apply (Permutation_NoDup (l := v :: rm)); [apply Permutation_cons_append|]. constructor; [exact E|exact H]. }
    apply G. constructor. }
  intros i Hi. destruct (nth_error (ins_all [] vs) i) as [v|] eqn:E; [|apply nth_error_None in E; lia].
  assert (IV : In v vs) by (apply nth_error_In in E; apply ins_all_in in E; destruct E as [[]|E]; exact E).
  exists v. split; [exact IV|]. destruct (ins_all_has vs [] v IV) as [j Hj]. unfold pos. rewrite Hj. apply index_of_some in Hj. destruct Hj as [Hj HL].
  rewrite NoDup_nth_error in ND. f_equal. symmetry. apply ND; [exact Hi|congruence].
Qed.
Lemma remap_ok limit rm f v : number_file f v -> zl (ins rm v) <= limit -> remap limit rm (Some f) = Ok (Some (ins rm v, pos v (ins rm v))).
Proof.
  intros HN HL. unfold remap. rewrite (read_number_ok f v HN). cbn [bind]. unfold ins, pos in *. destruct (index_of v rm) as [i|] eqn:E.
  - rewrite E. apply index_of_some in E. unfold zl in HL. destruct (Z.ltb_spec (Z.of_nat i) limit); [reflexivity|lia].
  - rewrite index_of_new by exact E. rewrite zl_app in HL. change (zl [v]) with 1 in HL. unfold zl in HL. destruct (Z.ltb_spec (Z.of_nat (length rm)) limit); [reflexivity|lia].
Qed.

Lemma upd_nth_map {A} (f g : nat -> A) P i : (i < P)%nat -> (forall j, j <> i -> f j = g j) -> upd (map f (seq 0 P)) i (g i) = map g (seq 0 P).
Proof.
  intros Hi H. unfold upd. apply nth_ext with (d := g 0%nat) (d' := g 0%nat).
  - rewrite app_length. cbn [length]. rewrite firstn_length, skipn_length, !map_length, seq_length. lia.
  - intros k Hk. rewrite app_length in Hk. cbn [length] in Hk. rewrite firstn_length, skipn_length, map_length, seq_length in Hk.
    rewrite map_nth, seq_nth by lia. cbn [Nat.add].
    destruct (Nat.lt_trichotomy k i) as [L|[->|L]].
    + rewrite app_nth1 by (rewrite firstn_length, map_length, seq_length; lia). rewrite <- (firstn_skipn i (map f (seq 0 P))) at 1.
      assert (E : nth k (firstn i (map f (seq 0 P))) (g 0%nat) = nth k (map f (seq 0 P)) (g 0%nat)).
      { rewrite <- (firstn_skipn i (map f (seq 0 P))) at 2. rewrite app_nth1 by (rewrite firstn_length, map_length, seq_length; lia). reflexivity. }
      rewrite firstn_skipn, E. rewrite (nth_indep _ _ (f 0%nat)) by (rewrite map_length, seq_length; lia). rewrite map_nth, seq_nth by lia. apply H. lia.
    + rewrite app_nth2 by (rewrite firstn_length, map_length, seq_length; lia). rewrite firstn_length, map_length, seq_length. replace (i - Nat.min i P)%nat with 0%nat by lia. reflexivity.
    + rewrite app_nth2 by (rewrite firstn_length, map_length, seq_length; lia). rewrite firstn_length, map_length, seq_length. replace (k - Nat.min i P)%nat with (Datatypes.S (k - i - 1)) by lia. cbn [nth].
      assert (E : nth (k - i - 1) (skipn (Datatypes.S i) (map f (seq 0 P))) (g 0%nat) = nth k (map f (seq 0 P)) (g 0%nat)).
      { rewrite <- (firstn_skipn (Datatypes.S i) (map f (seq 0 P))) at 2. rewrite app_nth2 by (rewrite firstn_length, map_length, seq_length; lia). rewrite firstn_length, map_length, seq_length. f_equal. lia. }
      rewrite E. rewrite (nth_indep _ _ (f 0%nat)) by (rewrite map_length, seq_length; lia). rewrite map_nth, seq_nth by lia. apply H. lia.
Qed.

Section Machine.
Context (S : sysfs) (n : nat) (pk co : nat -> Z) (cl : nat -> option Z).
Context (Hpk : forall lp, (lp < n)%nat -> exists f, f_package S lp = Some f /\ number_file f (pk lp)).
Context (Hco : forall lp, (lp < n)%nat -> exists f, f_core S lp = Some f /\ number_file f (co lp)).
Context (Hcl : forall lp, (lp < n)%nat -> match cl lp with Some v => exists f, f_cluster S lp = Some f /\ number_file f v | None => f_cluster S lp = None end).
Context (Hn : (1 <= n <= 1024)%nat).

(** ** packages *)
Lemma packages_loop_ok todo : Forall (fun lp => lp < n)%nat todo -> forall rm acc, zl (ins_all rm (map pk todo)) <= 255 ->
  packages_loop S todo rm acc = Ok (Some (ins_all rm (map pk todo), acc ++ map (fun lp => pos (pk lp) (ins_all rm (map pk todo))) todo)).
Proof.
  induction 1 as [|lp todo Hlp HF IH]; intros rm acc HL; cbn [packages_loop map ins_all fold_left].
  - rewrite app_nil_r. reflexivity.
  - destruct (Hpk lp Hlp) as (f & -> & HN). cbn [map ins_all fold_left] in HL. fold (ins_all (ins rm (pk lp)) (map pk todo)) in *.
    rewrite (remap_ok 255 rm f (pk lp) HN) by (pose proof (ins_all_length (map pk todo) (ins rm (pk lp))); unfold zl in *; lia). cbn [bind].
    rewrite IH by exact HL. rewrite <- app_assoc. cbn [app]. do 4 f_equal. f_equal. unfold pos. destruct (ins_has rm (pk lp)) as [i Hi]. rewrite Hi. rewrite (ins_all_stable _ _ _ _ Hi). reflexivity.
Qed.
(** ** clusters and cores. T: the processors with their package numbers *)
Notation X := (nat * Z)%type (only parsing).
Definition cl_vals (D : list X) (p : Z) : list Z := flat_map (fun x => if snd x =? p then match cl (fst x) with Some v => [v] | None => [] end else []) D.
Definition co_vals (D : list X) (p : Z) : list Z := flat_map (fun x => if snd x =? p then [co (fst x)] else []) D.
Definition cls_of (D : list X) (p : Z) : list Z := ins_all [] (cl_vals D p).
Definition cos_of (D : list X) (p : Z) : list Z := ins_all [] (co_vals D p).
Definition core_in (D : list X) (x : X) : Z := pos (co (fst x)) (cos_of D (snd x)).
Definition cluster_in (D : list X) (x : X) : Z := match cl (fst x) with Some v => pos v (cls_of D (snd x)) | None => 0 end.
Lemma co_vals_app D E p : co_vals (D ++ E) p = co_vals D p ++ co_vals E p.
Proof. apply flat_map_app. Qed.
Lemma cl_vals_app D E p : cl_vals (D ++ E) p = cl_vals D p ++ cl_vals E p.
Proof. apply flat_map_app. Qed.
Lemma co_vals_in D x : In x D -> In (co (fst x)) (co_vals D (snd x)).
Proof. intros H. unfold co_vals. apply in_flat_map. exists x. split; [exact H|]. rewrite Z.eqb_refl. left. reflexivity. Qed.
Lemma cl_vals_in D x v : In x D -> cl (fst x) = Some v -> In v (cl_vals D (snd x)).
Proof. intros H E. unfold cl_vals. apply in_flat_map. exists x. split; [exact H|]. rewrite Z.eqb_refl, E. left. reflexivity. Qed.
Lemma core_in_app D E x : In x D -> core_in (D ++ E) x = core_in D x.
Proof.
  intros H. unfold core_in, cos_of. rewrite co_vals_app, ins_all_app. destruct (ins_all_has _ [] _ (co_vals_in D x H)) as [i Hi]. unfold pos. rewrite Hi, (ins_all_stable _ _ _ _ Hi). reflexivity.
Qed.
Lemma cluster_in_app D E x : In x D -> cluster_in (D ++ E) x = cluster_in D x.
Proof.
  intros H. unfold cluster_in, cls_of. destruct (cl (fst x)) as [v|] eqn:E'; [|reflexivity]. rewrite cl_vals_app, ins_all_app.
  destruct (ins_all_has _ [] _ (cl_vals_in D x v H E')) as [i Hi]. unfold pos. rewrite Hi, (ins_all_stable _ _ _ _ Hi). reflexivity.
Qed.
(** processors of D in package p and core c *)
Definition same (D : list X) (p c : Z) : list X := filter (fun x => (snd x =? p) && (core_in D x =? c)) D.
Definition count (D : list X) (p c : Z) : Z := zl (same D p c).
Definition state_of (D : list X) (p : Z) : PerPackage := {| clusters := cls_of D p; cores := cos_of D p; smt_per_core := map (fun c => count D p (Z.of_nat c)) (seq 0 1024) |}.
Definition rec_of (D : list X) (x : X) : LP := {| l_cluster := cluster_in (D ++ [x]) x; l_core := core_in (D ++ [x]) x; l_package := snd x; l_smt := count D (snd x) (core_in (D ++ [x]) x); l_node := 0 |}.
Fixpoint recs (D R : list X) : list LP := match R with [] => [] | x :: R => rec_of D x :: recs (D ++ [x]) R end.
Lemma count_snoc D x p c : count (D ++ [x]) p c = if (snd x =? p) && (core_in (D ++ [x]) x =? c) then count D p c + 1 else count D p c.
Proof.
  assert (E : filter (fun x0 => (snd x0 =? p) && (core_in (D ++ [x]) x0 =? c)) D = filter (fun x0 => (snd x0 =? p) && (core_in D x0 =? c)) D).
  { apply filter_ext_in. intros y Hy. rewrite core_in_app by exact Hy. reflexivity. }
  unfold count, same. rewrite filter_app, E, zl_app. cbn [filter]. destruct ((snd x =? p) && (core_in (D ++ [x]) x =? c)); [reflexivity|apply Z.add_0_r].
Qed.
Lemma co_vals_len D p : (length (co_vals D p) <= length D)%nat.
Proof. induction D as [|x D IH]; [reflexivity|]. cbn [co_vals flat_map length]. rewrite app_length. unfold co_vals in IH. destruct (snd x =? p); cbn; lia. Qed.
Lemma cl_vals_len D p : (length (cl_vals D p) <= length D)%nat.
Proof. induction D as [|x D IH]; [reflexivity|]. cbn [cl_vals flat_map length]. rewrite app_length. unfold cl_vals in IH. destruct (snd x =? p); [destruct (cl (fst x))|]; cbn; lia. Qed.
Lemma count_mono D E p c : count D p c <= count (D ++ E) p c.
Proof.
  revert D. induction E as [|x E IH]; intros D; [rewrite app_nil_r; lia|]. change (x :: E) with ([x] ++ E). rewrite app_assoc. specialize (IH (D ++ [x])).
  rewrite count_snoc in IH. destruct ((snd x =? p) && _); lia.
Qed.
Lemma cores_loop_ok P todo : forall D acc, Forall (fun x => (fst x < n)%nat /\ 0 <= snd x < Z.of_nat P) todo ->
  (length (D ++ todo) <= 1024)%nat -> (forall p c, count (D ++ todo) p c <= 16) ->
  cores_loop S todo (map (fun p => state_of D (Z.of_nat p)) (seq 0 P)) acc = Ok (Some (map (fun p => state_of (D ++ todo) (Z.of_nat p)) (seq 0 P), acc ++ recs D todo)).
Proof.
  induction todo as [|[lp pkg] todo IH]; intros D acc HF HL HC.
  - cbn [cores_loop recs]. rewrite !app_nil_r. reflexivity.
  - inversion HF as [|? ? [Hlp Hpkg] HF']; subst. cbn [fst snd] in *. cbn [cores_loop recs].
    assert (EN : nth_error (map (fun p => state_of D (Z.of_nat p)) (seq 0 P)) (Z.to_nat pkg) = Some (state_of D pkg)).
    { rewrite nth_error_map. rewrite (nth_error_nth' _ 0%nat) by (rewrite seq_length; lia). rewrite seq_nth by lia. cbn [option_map Nat.add]. rewrite Z2Nat.id by lia. reflexivity. }
    rewrite EN.
    assert (HL' : (length D + 1 <= 1024)%nat) by (rewrite app_length in HL; cbn [length] in HL; lia).
    set (x := (lp, pkg)) in *.
    assert (CL : cls_of (D ++ [x]) pkg = match cl lp with Some v => ins (cls_of D pkg) v | None => cls_of D pkg end).
    { unfold cls_of. rewrite cl_vals_app, ins_all_app. cbn [cl_vals flat_map fst snd]. unfold x. cbn [fst snd]. rewrite Z.eqb_refl. destruct (cl lp); reflexivity. }
    assert (CO : cos_of (D ++ [x]) pkg = ins (cos_of D pkg) (co lp)).
    { unfold cos_of. rewrite co_vals_app, ins_all_app. cbn [co_vals flat_map fst snd]. unfold x. cbn [fst snd]. rewrite Z.eqb_refl. reflexivity. }
    assert (R1 : exists o, remap 65535 (clusters (state_of D pkg)) (f_cluster S lp) = Ok o /\ match o with None => (clusters (state_of D pkg), 0) | Some (rm, i) => (rm, i) end = (cls_of (D ++ [x]) pkg, cluster_in (D ++ [x]) x)).
    { cbn [state_of clusters]. change (cluster_in (D ++ [x]) x) with (match cl lp with Some v => pos v (cls_of (D ++ [x]) pkg) | None => 0 end). rewrite CL. specialize (Hcl lp Hlp). destruct (cl lp) as [v|].
      - destruct Hcl as (f & -> & HN). eexists. split; [apply remap_ok; [exact HN|]|reflexivity].
        pose proof (ins_length (cls_of D pkg) v). pose proof (ins_all_length (cl_vals D pkg) []). pose proof (cl_vals_len D pkg). unfold cls_of, zl in *. cbn [length] in *. lia.
      - rewrite Hcl. eexists. split; [reflexivity|reflexivity]. }
    destruct R1 as (o & -> & EO). cbn [bind]. rewrite EO.
    destruct (Hco lp Hlp) as (f & -> & HN).
    assert (LEN : zl (ins (cos_of D pkg) (co lp)) <= 1024).
    { pose proof (ins_length (cos_of D pkg) (co lp)). pose proof (ins_all_length (co_vals D pkg) []). pose proof (co_vals_len D pkg). unfold cos_of, zl in *. cbn [length] in *. lia. }
    change (cores (state_of D pkg)) with (cos_of D pkg). rewrite (remap_ok 65535 _ f (co lp) HN) by lia. cbn [bind]. rewrite <- CO.
    assert (EC : pos (co lp) (cos_of (D ++ [x]) pkg) = core_in (D ++ [x]) x) by reflexivity. rewrite EC.
    assert (RC : 0 <= core_in (D ++ [x]) x < 1024).
    { destruct (ins_has (cos_of D pkg) (co lp)) as [i Hi]. rewrite <- CO in Hi. apply pos_range in Hi. rewrite EC in Hi. rewrite CO in Hi. lia. }
    destruct (Z.ltb_spec (core_in (D ++ [x]) x) 1024); [|lia]. cbn [guard bind].
    assert (SM : nth (Z.to_nat (core_in (D ++ [x]) x)) (smt_per_core (state_of D pkg)) 0 = count D pkg (core_in (D ++ [x]) x)).
    { cbn [state_of smt_per_core]. rewrite (nth_indep _ 0 (count D pkg (Z.of_nat 0))) by (rewrite map_length, seq_length; lia).
      rewrite (map_nth (fun c => count D pkg (Z.of_nat c))), seq_nth by lia. cbn [Nat.add]. rewrite Z2Nat.id by lia. reflexivity. }
    rewrite SM.
    assert (CS : count (D ++ [x]) pkg (core_in (D ++ [x]) x) = count D pkg (core_in (D ++ [x]) x) + 1).
    { rewrite count_snoc. change (snd x) with pkg. rewrite !Z.eqb_refl. reflexivity. }
    assert (CB : count D pkg (core_in (D ++ [x]) x) + 1 <= 16).
    { rewrite <- CS. etransitivity; [apply (count_mono (D ++ [x]) todo)|]. rewrite <- app_assoc. apply HC. }
    assert (C0 : 0 <= count D pkg (core_in (D ++ [x]) x)) by (unfold count, zl; lia).
    destruct (Z.ltb_spec (count D pkg (core_in (D ++ [x]) x)) 16); [|lia]. cbn [guard bind].
    specialize (IH (D ++ [x]) (acc ++ [rec_of D x]) HF'). rewrite <- !app_assoc in IH. cbn [app] in IH. specialize (IH HL HC).
    etransitivity; [|exact IH]. f_equal.
    rewrite <- (upd_nth_map (fun p => state_of D (Z.of_nat p)) (fun p => state_of (D ++ [x]) (Z.of_nat p)) P (Z.to_nat pkg)); [|lia|].
    + f_equal. rewrite Z2Nat.id by lia. unfold state_of at 2. f_equal. cbn [state_of smt_per_core].
      assert (EW : wrap 8 (count D pkg (core_in (D ++ [x]) x) + 1) = count (D ++ [x]) pkg (Z.of_nat (Z.to_nat (core_in (D ++ [x]) x)))).
      { rewrite Z2Nat.id by lia. rewrite CS. unfold wrap. rewrite Z.mod_small; [reflexivity|]. change (2 ^ 8) with 256. lia. }
      rewrite EW. apply (upd_nth_map (fun c => count D pkg (Z.of_nat c)) (fun c => count (D ++ [x]) pkg (Z.of_nat c))); [lia|].
      intros j Hj. rewrite count_snoc. change (snd x) with pkg. rewrite Z.eqb_refl. destruct (Z.eqb_spec (core_in (D ++ [x]) x) (Z.of_nat j)); [lia|reflexivity].
    + intros j Hj. assert (NE : (pkg =? Z.of_nat j) = false) by lia. unfold state_of, cls_of, cos_of. rewrite cl_vals_app, co_vals_app. cbn [cl_vals co_vals flat_map].
      change (snd x) with pkg. rewrite NE. cbn [app]. rewrite !app_nil_r. f_equal. apply map_ext. intros c. rewrite count_snoc. change (snd x) with pkg. rewrite NE. reflexivity.
Qed.

(** ** DetectPackages *)
Definition PK : list Z := ins_all [] (map pk (seq 0 n)).
Definition pkno (lp : nat) : Z := pos (pk lp) PK.
Definition ALL : list X := map (fun lp => (lp, pkno lp)) (seq 0 n).
Definition same_core (lp lp' : nat) : Prop := pk lp = pk lp' /\ co lp = co lp'.
Definition smtno (lp : nat) : Z := count (map (fun lp => (lp, pkno lp)) (seq 0 lp)) (pkno lp) (core_in ALL (lp, pkno lp)).
Definition lprec (lp : nat) : LP := {| l_cluster := cluster_in ALL (lp, pkno lp); l_core := core_in ALL (lp, pkno lp); l_package := pkno lp; l_smt := smtno lp; l_node := 0 |}.
Lemma recs_ok R : forall D, recs D R = map (fun i => match nth_error R i with Some x => {| l_cluster := cluster_in (D ++ R) x; l_core := core_in (D ++ R) x; l_package := snd x; l_smt := count (D ++ firstn i R) (snd x) (core_in (D ++ R) x); l_node := 0 |} | None => {| l_cluster := 0; l_core := 0; l_package := 0; l_smt := 0; l_node := 0 |} end) (seq 0 (length R)).
Proof.
  induction R as [|x R IH]; intros D; [reflexivity|]. cbn [recs length seq map nth_error firstn]. rewrite app_nil_r. f_equal.
  - unfold rec_of. rewrite <- (cluster_in_app (D ++ [x]) R x), <- (core_in_app (D ++ [x]) R x) by (apply in_or_app; right; left; reflexivity).
    rewrite <- !app_assoc. reflexivity.
  - rewrite IH. rewrite <- seq_shift, map_map. apply map_ext. intros i. cbn [nth_error firstn]. rewrite <- !app_assoc. reflexivity.
Qed.
Lemma pk_has lp : (lp < n)%nat -> exists i, index_of (pk lp) PK = Some i.
Proof. intros H. apply ins_all_has. apply in_map, in_seq. lia. Qed.
Lemma pkno_range lp : (lp < n)%nat -> 0 <= pkno lp < zl PK.
Proof. intros H. destruct (pk_has lp H) as [i Hi]. apply (pos_range _ _ _ Hi). Qed.
Lemma pkno_inj lp lp' : (lp < n)%nat -> (lp' < n)%nat -> (pkno lp = pkno lp' <-> pk lp = pk lp').
Proof. intros H H'. destruct (pk_has lp H) as [i Hi], (pk_has lp' H') as [j Hj]. apply (pos_inj _ _ _ _ _ Hi Hj). Qed.
Lemma ALL_in lp : (lp < n)%nat -> In (lp, pkno lp) ALL.
Proof. intros H. unfold ALL. apply in_map_iff. exists lp. split; [reflexivity|apply in_seq; lia]. Qed.
Lemma ALL_in_inv x : In x ALL -> x = (fst x, pkno (fst x)) /\ (fst x < n)%nat.
Proof. unfold ALL. intros H. apply in_map_iff in H. destruct H as (lp & <- & H). apply in_seq in H. cbn [fst]. split; [reflexivity|lia]. Qed.
Lemma core_has lp : (lp < n)%nat -> exists i, index_of (co lp) (cos_of ALL (pkno lp)) = Some i.
Proof. intros H. apply ins_all_has. apply (co_vals_in ALL (lp, pkno lp)), ALL_in, H. Qed.
Lemma core_inj lp lp' : (lp < n)%nat -> (lp' < n)%nat -> pkno lp = pkno lp' -> (core_in ALL (lp, pkno lp) = core_in ALL (lp', pkno lp') <-> co lp = co lp').
Proof. intros H H' E. destruct (core_has lp H) as [i Hi], (core_has lp' H') as [j Hj]. unfold core_in. cbn [fst snd]. rewrite E in *. apply (pos_inj _ _ _ _ _ Hi Hj). Qed.
Lemma core_range lp : (lp < n)%nat -> 0 <= core_in ALL (lp, pkno lp) < zl (cos_of ALL (pkno lp)).
Proof. intros H. destruct (core_has lp H) as [i Hi]. apply (pos_range _ _ _ Hi). Qed.
Lemma cluster_has lp v : (lp < n)%nat -> cl lp = Some v -> exists i, index_of v (cls_of ALL (pkno lp)) = Some i.
Proof. intros H E. apply ins_all_has. apply (cl_vals_in ALL (lp, pkno lp)); [apply ALL_in, H|exact E]. Qed.
Lemma cluster_range lp : (lp < n)%nat -> 0 <= cluster_in ALL (lp, pkno lp) < Z.of_nat (Nat.max 1 (length (cls_of ALL (pkno lp)))).
Proof.
  intros H. unfold cluster_in. cbn [fst snd]. destruct (cl lp) as [v|] eqn:E; [|lia]. destruct (cluster_has lp v H E) as [i Hi]. apply pos_range in Hi. unfold zl in Hi. lia.
Qed.
Lemma same_count m lp : (m <= n)%nat -> (lp < n)%nat ->
  count (map (fun lp => (lp, pkno lp)) (seq 0 m)) (pkno lp) (core_in ALL (lp, pkno lp)) = zl (filter (fun l => (pk l =? pk lp) && (co l =? co lp)) (seq 0 m)).
Proof.
  intros Hm Hlp. set (D := map (fun lp => (lp, pkno lp)) (seq 0 m)).
  assert (EA : ALL = D ++ map (fun lp => (lp, pkno lp)) (seq m (n - m))) by (unfold ALL, D; rewrite <- map_app, <- seq_app; do 2 f_equal; lia).
  unfold count, same. rewrite (filter_ext_in _ (fun x => (pk (fst x) =? pk lp) && (co (fst x) =? co lp))).
  - unfold D. generalize (seq 0 m). intros l. unfold zl. f_equal. induction l as [|a l IH]; [reflexivity|]. cbn [map filter fst]. destruct ((pk a =? pk lp) && (co a =? co lp)); cbn [length]; lia.
  - intros x Hx. assert (HA : In x ALL) by (rewrite EA; apply in_or_app; left; exact Hx). rewrite <- (core_in_app D (map (fun lp => (lp, pkno lp)) (seq m (n - m))) x Hx), <- EA.
    destruct (ALL_in_inv x HA) as [EX LX]. rewrite EX. cbn [fst snd]. assert (I := pkno_inj (fst x) lp LX Hlp). assert (J := core_inj (fst x) lp LX Hlp).
    destruct (Z.eqb_spec (pkno (fst x)) (pkno lp)) as [E|E], (Z.eqb_spec (pk (fst x)) (pk lp)) as [E'|E']; try (exfalso; tauto); [|reflexivity]. cbn [andb]. specialize (J E).
    destruct (Z.eqb_spec (core_in ALL (fst x, pkno (fst x))) (core_in ALL (lp, pkno lp))), (Z.eqb_spec (co (fst x)) (co lp)); (reflexivity || (exfalso; tauto)).
Qed.
Context (Hpackages : zl PK <= 255).
Context (Hsmt : forall lp, (lp < n)%nat -> zl (filter (fun l => (pk l =? pk lp) && (co l =? co lp)) (seq 0 n)) <= 16).
Definition SIZES : list (nat * nat) := map (fun p => (Nat.max 1 (length (cls_of ALL (Z.of_nat p))), length (cos_of ALL (Z.of_nat p)))) (seq 0 (length PK)).
Lemma count_all p c : count ALL p c <= 16.
Proof.
  destruct (same ALL p c) as [|x l] eqn:E; [unfold count; rewrite E; cbn; lia|].
  assert (HX : In x (same ALL p c)) by (rewrite E; left; reflexivity). unfold same in HX. apply filter_In in HX. destruct HX as [HX HB].
  apply andb_prop in HB. destruct HB as [H1 H2]. apply Z.eqb_eq in H1, H2. destruct (ALL_in_inv x HX) as [EX LX].
  rewrite EX in H1, H2. cbn [snd] in H1. rewrite <- H1, <- H2. unfold ALL at 1. rewrite same_count by lia. apply Hsmt, LX.
Qed.
Lemma detect_packages_ok : detect_packages S n = Ok (Some (SIZES, map lprec (seq 0 n))).
Proof.
  unfold detect_packages. rewrite packages_loop_ok; [|apply Forall_forall; intros x Hx; apply in_seq in Hx; lia|exact Hpackages].
  fold PK. cbn [bind app].
  assert (P0 : (0 < length PK)%nat). { assert (R := pkno_range 0%nat ltac:(lia)). unfold zl in R. lia. }
  destruct (Z.eqb_spec (zl PK) 0); [unfold zl in *; lia|]. cbn [negb guard bind].
  assert (EC : combine (seq 0 n) (map (fun lp => pos (pk lp) PK) (seq 0 n)) = ALL).
  { unfold ALL, pkno. generalize (seq 0 n). induction l as [|a l IH]; [reflexivity|]. cbn [map combine]. rewrite IH. reflexivity. }
  rewrite EC.
  assert (ES : repeat {| clusters := []; cores := []; smt_per_core := repeat 0 1024 |} (length PK) = map (fun p => state_of [] (Z.of_nat p)) (seq 0 (length PK))).
  { assert (E1 : forall (A : Type) (a : A) k, repeat a k = map (fun _ => a) (seq 0 k)).
    { intros A a k. generalize 0%nat. induction k as [|k IH]; intros s0; [reflexivity|]. cbn [repeat seq map]. rewrite (IH (Datatypes.S s0)). reflexivity. }
    rewrite E1. apply map_ext. intros p. unfold state_of. f_equal. }
  rewrite ES. rewrite cores_loop_ok.
  - cbn [bind app]. assert (FB : forallb (fun p => negb (zl (cores p) =? 0)) (map (fun p => state_of ALL (Z.of_nat p)) (seq 0 (length PK))) = true).
    { apply forallb_forall. intros s Hs. apply in_map_iff in Hs. destruct Hs as (p & <- & Hp). apply in_seq in Hp. cbn [state_of cores].
      destruct (pos_at (map pk (seq 0 n)) p) as (v & Hv & EP); [fold PK; lia|]. apply in_map_iff in Hv. destruct Hv as (lp & <- & Hlp). apply in_seq in Hlp. fold PK in EP. fold (pkno lp) in EP.
      assert (R := core_range lp ltac:(lia)). rewrite EP in R. destruct (Z.eqb_spec (zl (cos_of ALL (Z.of_nat p))) 0); [lia|reflexivity]. }
    rewrite FB. cbn [guard bind]. do 3 f_equal.
    + unfold SIZES. rewrite map_map. reflexivity.
    + rewrite recs_ok. replace (length ALL) with n by (unfold ALL; rewrite map_length, seq_length; reflexivity). cbn [app]. apply map_ext_in. intros i Hi. apply in_seq in Hi.
      assert (EN : nth_error ALL i = Some (i, pkno i)) by (unfold ALL; rewrite nth_error_map, (nth_error_nth' _ 0%nat) by (rewrite seq_length; lia); rewrite seq_nth by lia; reflexivity). rewrite EN. cbn [snd].
      unfold lprec. f_equal. unfold smtno. f_equal. unfold ALL at 1. rewrite firstn_map. f_equal. replace n with (i + (n - i))%nat by lia. rewrite seq_app, firstn_app, seq_length, Nat.sub_diag. cbn [firstn]. rewrite app_nil_r. rewrite firstn_all2 by (rewrite seq_length; lia). reflexivity.
  - apply Forall_forall. intros x Hx. destruct (ALL_in_inv x Hx) as [-> L]. cbn [fst snd]. split; [exact L|]. apply pkno_range, L.
  - cbn [app]. unfold ALL. rewrite map_length, seq_length. lia.
  - intros p c. apply count_all.
Qed.
End Machine.
