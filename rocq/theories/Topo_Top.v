(** Proofs about the topology model: NUMA nodes and the final object. *)
From Coq Require Import ZArith List Bool Lia Permutation.
From Verif Require Import Word Topo_Spec Topo_Model Topo_Proofs Topo_Detect.
Import ListNotations.
Local Open Scope Z_scope.

Lemma members_ok (g : nat -> LP) n P : members (map g (seq 0 n)) P = filter (fun lp => P (g lp)) (seq 0 n).
Proof.
  unfold members. rewrite map_length, seq_length. generalize 0%nat. induction n as [|n IH]; intros s; [reflexivity|]. cbn [seq map combine filter snd].
  destruct (P (g s)); cbn [map fst]; rewrite IH; reflexivity.
Qed.
Lemma mapM_ok {A B} (f : A -> res B) (g : A -> B) l : (forall x, In x l -> f x = Ok (g x)) -> mapM f l = Ok (map g l).
Proof.
  induction l as [|x l IH]; intros H; [reflexivity|]. cbn [mapM map]. rewrite H by (left; reflexivity). cbn [bind]. rewrite IH by (intros y Hy; apply H; right; exact Hy). reflexivity.
Qed.
Definition with_node (l : LP) (v : Z) : LP := {| l_cluster := l_cluster l; l_core := l_core l; l_package := l_package l; l_smt := l_smt l; l_node := v |}.
Definition lists (l0 : list Z) (lp : nat) : bool := existsb (Z.eqb (Z.of_nat lp)) l0.
Lemma set_node_ok n node l0 : forall g, Forall (fun z => 0 <= z < Z.of_nat n) l0 ->
  set_node l0 node (map g (seq 0 n)) = Ok (map (fun lp => if lists l0 lp then with_node (g lp) (wrap 8 node) else g lp) (seq 0 n)).
Proof.
  induction l0 as [|z l0 IH]; intros g HF; [cbn; reflexivity|]. inversion HF as [|? ? Hz HF']; subst. cbn [set_node].
  assert (EN : nth_error (map g (seq 0 n)) (Z.to_nat z) = Some (g (Z.to_nat z))).
  { rewrite nth_error_map, (nth_error_nth' _ 0%nat) by (rewrite seq_length; lia). rewrite seq_nth by lia. reflexivity. }
  rewrite EN. change {| l_cluster := _; l_core := _; l_package := _; l_smt := _; l_node := _ |} with (with_node (g (Z.to_nat z)) (wrap 8 node)).
  set (g' := fun lp => if Z.of_nat lp =? z then with_node (g lp) (wrap 8 node) else g lp).
  assert (EU : upd (map g (seq 0 n)) (Z.to_nat z) (with_node (g (Z.to_nat z)) (wrap 8 node)) = map g' (seq 0 n)).
  { rewrite <- (upd_nth_map g g' n (Z.to_nat z)); [|lia|].
    - f_equal. unfold g'. rewrite Z2Nat.id by lia. rewrite Z.eqb_refl. reflexivity.
    - intros j Hj. unfold g'. destruct (Z.eqb_spec (Z.of_nat j) z); [lia|reflexivity]. }
  rewrite EU, IH by exact HF'. f_equal. apply map_ext. intros lp. unfold g', lists. cbn [existsb].
  destruct (Z.of_nat lp =? z); destruct (existsb (Z.eqb (Z.of_nat lp)) l0); reflexivity.
Qed.
Lemma value_nonneg ds : Forall is_digit ds -> 0 <= value ds.
Proof.
  unfold value. assert (G : forall a, 0 <= a -> Forall is_digit ds -> 0 <= fold_left (fun a c => a * 10 + (c - 48)) ds a); [|intros H; apply G; [lia|exact H]].
  induction ds as [|d ds IH]; intros a Ha HF; [exact Ha|]. inversion HF as [|? ? Hd HF']; subst. cbn [fold_left]. apply IH; [unfold is_digit in Hd; lia|exact HF'].
Qed.
Lemma item_lps_range m its : Forall (item_ok m) its -> Forall (fun z => 0 <= z <= m) (flat_map item_lps its).
Proof.
  intros HF. apply Forall_forall. intros z Hz. apply in_flat_map in Hz. destruct Hz as (i & Hi & Hz). rewrite Forall_forall in HF. specialize (HF i Hi). destruct i as [ds|ds1 ds2]; cbn [item_ok item_lps] in *.
  - destruct HF as (v & (_ & HD & <-) & HV). destruct Hz as [<-|[]]. apply value_nonneg in HD. lia.
  - destruct HF as (v1 & v2 & (_ & HD & <-) & (_ & _ & <-) & H12 & HV). apply value_nonneg in HD. apply in_map_iff in Hz. destruct Hz as (k & <- & Hk). apply in_seq in Hk. lia.
Qed.
(** what the node loop does with the remaining nodes *)
Fixpoint node_from (node : nat) (nodes : list (list item)) (lp : nat) (v : Z) : Z :=
  match nodes with [] => v | its :: nodes => node_from (S node) nodes lp (if lists (flat_map item_lps its) lp then wrap 8 (Z.of_nat node) else v) end.
Definition node_file (n : nat) (S : sysfs) (i : nat) (its : list item) : Prop :=
  its <> [] /\ Forall (item_ok (Z.of_nat n - 1)) its /\ exists nl, (nl = [] \/ nl = [10]) /\ f_node S i = Some (list_text its ++ nl) /\ (length (list_text its ++ nl) < 200)%nat.
Lemma set_nodes_ok S n nodes : forall fuel node g, (length nodes < fuel)%nat -> (forall i its, nth_error nodes i = Some its -> node_file n S (node + i) its) -> f_node S (node + length nodes) = None ->
  set_nodes S fuel node (map g (seq 0 n)) = Ok (map (fun lp => with_node (g lp) (node_from node nodes lp (l_node (g lp)))) (seq 0 n)).
Proof.
  induction nodes as [|its nodes IH]; intros fuel node g HL HN HE; destruct fuel as [|fuel]; try (cbn [length] in HL; lia); cbn [set_nodes].
  - cbn [length] in HE. rewrite Nat.add_0_r in HE. rewrite HE. cbn [read_sysfs bind]. f_equal. apply map_ext. intros lp. cbn [node_from]. destruct (g lp); reflexivity.
  - destruct (HN 0%nat its eq_refl) as (NE & HF & nl & Hnl & EF & LT). rewrite Nat.add_0_r in EF. rewrite EF. unfold read_sysfs. destruct (Z.ltb_spec (zl (list_text its ++ nl)) 200) as [_|]; [|unfold zl in *; lia]. cbn [bind].
    assert (ZN : zl (map g (seq 0 n)) = Z.of_nat n) by (unfold zl; rewrite map_length, seq_length; reflexivity). rewrite ZN.
    rewrite <- app_assoc. rewrite expand_list_ok; [|exact HF|exact NE|exact Hnl| |].
    2: { unfold zl. rewrite !app_length. cbn [length]. lia. }
    2: { unfold zl, kNotFound. rewrite app_length in LT. rewrite !app_length. cbn [length]. lia. }
    cbn [bind]. rewrite set_node_ok.
    2: { apply item_lps_range in HF. eapply Forall_impl; [|exact HF]. intros a Ha. cbn in Ha. lia. }
    cbn [bind]. rewrite IH.
    + f_equal. apply map_ext. intros lp. cbn [node_from]. destruct (lists (flat_map item_lps its) lp); reflexivity.
    + cbn [length] in HL. lia.
    + intros i its' Hi. replace (Datatypes.S node + i)%nat with (node + Datatypes.S i)%nat by lia. apply HN. exact Hi.
    + cbn [length] in HE. replace (Datatypes.S node + length nodes)%nat with (node + Datatypes.S (length nodes))%nat by lia. exact HE.
Qed.
(** node_from is the last node listing the processor *)
Lemma node_from_none nodes lp : forall node v, (forall i its, nth_error nodes i = Some its -> ~ In (Z.of_nat lp) (flat_map item_lps its)) -> node_from node nodes lp v = v.
Proof.
  induction nodes as [|its nodes IH]; intros node v H; [reflexivity|]. cbn [node_from]. assert (E : lists (flat_map item_lps its) lp = false).
  { unfold lists. destruct (existsb _ _) eqn:E; [|reflexivity]. apply existsb_exists in E. destruct E as (z & Hz & E). apply Z.eqb_eq in E. subst z. destruct (H 0%nat its eq_refl Hz). }
  rewrite E. apply IH. intros i its' Hi. apply (H (S i)). exact Hi.
Qed.
Lemma node_from_last nodes lp : forall node v k its, nth_error nodes k = Some its -> In (Z.of_nat lp) (flat_map item_lps its) ->
  (forall j its', (k < j)%nat -> nth_error nodes j = Some its' -> ~ In (Z.of_nat lp) (flat_map item_lps its')) -> node_from node nodes lp v = wrap 8 (Z.of_nat (node + k)).
Proof.
  induction nodes as [|its0 nodes IH]; intros node v k its Hk HI HA; [destruct k; discriminate Hk|]. cbn [node_from]. destruct k as [|k].
  - cbn in Hk. injection Hk as ->. assert (E : lists (flat_map item_lps its) lp = true). { unfold lists. apply existsb_exists. exists (Z.of_nat lp). split; [exact HI|apply Z.eqb_refl]. }
    rewrite E, Nat.add_0_r. apply node_from_none. intros i its' Hi. apply (HA (S i)); [lia|exact Hi].
  - rewrite (IH (S node) _ k its Hk HI). { f_equal. lia. } intros j its' Hj E. apply (HA (S j)); [lia|exact E].
Qed.

Section Top.
Context (S : sysfs) (n : nat) (pk co : nat -> Z) (cl l2 l3 : nat -> option Z) (nodes : list (list item)) (fuel : nat).
Context (Hpk : forall lp, (lp < n)%nat -> exists f, f_package S lp = Some f /\ number_file f (pk lp)).
Context (Hco : forall lp, (lp < n)%nat -> exists f, f_core S lp = Some f /\ number_file f (co lp)).
Definition opt_file (f : nat -> option (list Z)) (v : nat -> option Z) : Prop := forall lp, (lp < n)%nat -> match v lp with Some v => exists t, f lp = Some t /\ number_file t v | None => f lp = None end.
Context (Hcl : opt_file (f_cluster S) cl) (Hl2 : opt_file (f_l2 S) l2) (Hl3 : opt_file (f_l3 S) l3).
Context (Hn : (1 <= n <= 1024)%nat).
Context (Hpackages : zl (PK n pk) <= 255).
Context (Hsmt : forall lp, (lp < n)%nat -> zl (filter (fun l => (pk l =? pk lp) && (co l =? co lp)) (seq 0 n)) <= 16).
Context (Hnodes : forall i its, nth_error nodes i = Some its -> node_file n S i its) (Hnodes_end : f_node S (length nodes) = None) (Hfuel : (length nodes < fuel)%nat).
Notation lprec := (lprec n pk co cl). Notation SIZES := (SIZES n pk co cl). Notation PK := (PK n pk). Notation ALL := (ALL n pk). Notation pkno := (pkno n pk).
Definition final (lp : nat) : LP := with_node (lprec lp) (node_from 0 nodes lp 0).
Definition in_cluster (p c lp : nat) : bool := (pkno lp =? Z.of_nat p) && (cluster_in cl ALL (lp, pkno lp) =? Z.of_nat c).
Definition in_core (p c lp : nat) : bool := (pkno lp =? Z.of_nat p) && (core_in co ALL (lp, pkno lp) =? Z.of_nat c).
Definition cluster_of (c : list nat) : Cluster :=
  let lp := hd 0%nat c in {| c_lps := c; private_kib := option_map (fun b => Z.shiftr b 10) (l2 lp); shared_kib := option_map (fun b => Z.shiftr b 10) (l3 lp) |}.
Lemma opt_read f v lp : opt_file f v -> (lp < n)%nat -> read_number (f lp) = Ok (v lp).
Proof. intros H L. specialize (H lp L). destruct (v lp) as [x|]; [|rewrite H; reflexivity]. destruct H as (t & -> & HN). apply read_number_ok, HN. Qed.
Lemma cluster_nonempty p c : (p < length PK)%nat -> (c < Nat.max 1 (length (cls_of cl ALL (Z.of_nat p))))%nat -> exists lp, (lp < n)%nat /\ in_cluster p c lp = true.
Proof using Hn.
  clear Hfuel. intros Hp Hc. destruct (Nat.eq_dec (length (cls_of cl ALL (Z.of_nat p))) 0) as [E0|N0].
  - assert (c = 0%nat) by lia. subst c. destruct (pos_at (map pk (seq 0 n)) p Hp) as (v & Hv & EP). apply in_map_iff in Hv. destruct Hv as (lp & <- & Hlp). apply in_seq in Hlp.
    change (pkno lp = Z.of_nat p) in EP. exists lp. split; [lia|]. unfold in_cluster. rewrite EP, Z.eqb_refl. cbn [andb]. assert (R := cluster_range n pk cl Hn lp ltac:(lia)). rewrite EP, E0 in R. destruct (Z.eqb_spec (cluster_in cl ALL (lp, Z.of_nat p)) (Z.of_nat 0)); [reflexivity|lia].
  - destruct (pos_at (cl_vals cl ALL (Z.of_nat p)) c) as (v & Hv & EP); [unfold cls_of in *; lia|]. unfold cl_vals in Hv. apply in_flat_map in Hv. destruct Hv as (x & Hx & Hv).
    destruct (ALL_in_inv n pk Hn x Hx) as [EX LX]. destruct (Z.eqb_spec (snd x) (Z.of_nat p)) as [E|]; [|destruct Hv]. destruct (cl (fst x)) as [w|] eqn:EW; [|destruct Hv]. destruct Hv as [->|[]].
    exists (fst x). split; [exact LX|]. unfold in_cluster, cluster_in. rewrite <- EX, E. cbn [fst snd]. rewrite EW. rewrite EX in E. cbn [snd] in E. rewrite !E. rewrite Z.eqb_refl. cbn [andb].
    fold (cls_of cl ALL (Z.of_nat p)) in EP. rewrite EP. apply Z.eqb_refl.
Qed.
Lemma core_nonempty p c : (c < length (cos_of co ALL (Z.of_nat p)))%nat -> exists lp, (lp < n)%nat /\ in_core p c lp = true.
Proof using Hn.
  clear Hfuel. intros Hc. destruct (pos_at (co_vals co ALL (Z.of_nat p)) c Hc) as (v & Hv & EP). unfold co_vals in Hv. apply in_flat_map in Hv. destruct Hv as (x & Hx & Hv).
  destruct (ALL_in_inv n pk Hn x Hx) as [EX LX]. destruct (Z.eqb_spec (snd x) (Z.of_nat p)) as [E|]; [|destruct Hv]. destruct Hv as [<-|[]].
  exists (fst x). split; [exact LX|]. unfold in_core, core_in. rewrite EX in E. cbn [snd] in E. cbn [fst snd]. rewrite !E. rewrite Z.eqb_refl. cbn [andb].
  fold (cos_of co ALL (Z.of_nat p)) in EP. rewrite EP. apply Z.eqb_refl.
Qed.
Definition the_package (p : nat) : Package :=
  {| p_clusters := map (fun c => cluster_of (filter (in_cluster p c) (seq 0 n))) (seq 0 (Nat.max 1 (length (cls_of cl ALL (Z.of_nat p)))));
     p_cores := map (fun c => filter (in_core p c) (seq 0 n)) (seq 0 (length (cos_of co ALL (Z.of_nat p)))) |}.
Lemma topology_ok : topology S n fuel = Ok {| packages := map the_package (seq 0 (length PK)); lps := map final (seq 0 n) |}.
Proof.
  unfold topology. rewrite (detect_packages_ok S n pk co cl Hpk Hco Hcl Hn Hpackages Hsmt). cbn [bind].
  rewrite (set_nodes_ok S n nodes fuel 0 lprec Hfuel Hnodes Hnodes_end). cbn [bind].
  change (map (fun lp => with_node (lprec lp) (node_from 0 nodes lp (l_node (lprec lp)))) (seq 0 n)) with (map final (seq 0 n)).
  assert (FB : forallb (fun l => match nth_error SIZES (Z.to_nat (l_package l)) with Some (ncl, nco) => (l_cluster l <? Z.of_nat ncl) && (l_core l <? Z.of_nat nco) | None => false end) (map final (seq 0 n)) = true).
  { apply forallb_forall. intros l Hl. apply in_map_iff in Hl. destruct Hl as (lp & <- & Hlp). apply in_seq in Hlp. cbn [final with_node lprec l_package l_cluster l_core].
    assert (R := pkno_range n pk Hn lp ltac:(lia)). unfold zl in R. unfold Topo_Detect.SIZES. rewrite nth_error_map, (nth_error_nth' _ 0%nat) by (rewrite seq_length; lia). rewrite seq_nth by lia. cbn [option_map Nat.add].
    rewrite Z2Nat.id by lia. assert (R1 := cluster_range n pk cl Hn lp ltac:(lia)). assert (R2 := core_range n pk co Hn lp ltac:(lia)). unfold zl in R2.
    apply andb_true_intro. split; apply Z.ltb_lt; lia. }
  rewrite FB.
  assert (EC : combine (seq 0 (length SIZES)) SIZES = map (fun p => (p, (Nat.max 1 (length (cls_of cl ALL (Z.of_nat p))), length (cos_of co ALL (Z.of_nat p))))) (seq 0 (length PK))).
  { unfold Topo_Detect.SIZES. rewrite map_length, seq_length. generalize (seq 0 (length PK)). induction l as [|a l IH]; [reflexivity|]. cbn [map combine]. rewrite IH. reflexivity. }
  rewrite EC. rewrite (mapM_ok _ (fun x => the_package (fst x))).
  - cbn [bind]. do 2 f_equal. rewrite map_map. reflexivity.
  - intros x Hx. apply in_map_iff in Hx. destruct Hx as (p & <- & Hp). apply in_seq in Hp. cbn [fst].
    rewrite (mapM_ok _ (fun c => cluster_of (filter (in_cluster p c) (seq 0 n)))).
    + cbn [bind]. unfold the_package. do 2 f_equal. apply map_ext. intros c. rewrite members_ok. reflexivity.
    + intros c Hc. apply in_seq in Hc. rewrite members_ok. change (fun lp => (l_package (final lp) =? Z.of_nat p) && (l_cluster (final lp) =? Z.of_nat c)) with (in_cluster p c).
      destruct (filter (in_cluster p c) (seq 0 n)) as [|a l] eqn:EF.
      * destruct (cluster_nonempty p c) as (lp & L & HI); [lia|lia|]. assert (In lp (filter (in_cluster p c) (seq 0 n))) as HX by (apply filter_In; split; [apply in_seq; lia|exact HI]). rewrite EF in HX. destruct HX.
      * assert (L : (a < n)%nat). { assert (In a (filter (in_cluster p c) (seq 0 n))) as HX by (rewrite EF; left; reflexivity). apply filter_In in HX. destruct HX as [HX _]. apply in_seq in HX. lia. }
        cbn [cluster_sizes]. rewrite (opt_read _ _ a Hl2 L), (opt_read _ _ a Hl3 L). reflexivity.
Qed.
End Top.
