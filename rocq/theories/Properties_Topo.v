(** C80-C85: detection of the processor topology and caches from sysfs (Linux). *)
From Coq Require Import ZArith List Bool Lia Permutation.
From Verif Require Import Word Topo_Spec Topo_Model Topo_Proofs Topo_Detect Topo_Top TopoCache_Spec TopoCache_Model TopoCache_Proofs.
Import ListNotations.
Local Open Scope Z_scope.

(** ** C80 reading a file *)
(** Whatever portions read() returns and however often it is interrupted, a file shorter than 200 bytes is read completely and NUL-terminated, unless read() fails *)
Theorem C80_file_read_partial : forall content rs, (length content < 200)%nat -> reads content 0 rs ->
  file_read rs [] = Ok (Some (content ++ [0])) \/ (In Err rs /\ file_read rs [] = Ok None).
Proof.
  intros content rs HL HR. destruct (file_read_ok content 0 rs HR ltac:(lia) ltac:(lia)) as [H|H]; [left|right; exact H].
  cbn [firstn] in H. rewrite H. unfold read_sysfs. destruct (Z.ltb_spec (zl content) 200); [reflexivity|unfold zl in *; lia].
Qed.
(** Refuted for longer files: the NUL goes one byte past the end of the caller's 200-byte buffer, for every way of reading one without error *)
Theorem C80_long_file_refuted : forall content rs, (200 <= length content)%nat -> reads content 0 rs -> ~ In Err rs -> file_read rs [] = UB.
Proof.
  intros content rs HL HR HE. destruct (file_read_ok content 0 rs HR ltac:(lia) ltac:(lia)) as [H|[H _]]; [|contradiction].
  cbn [firstn] in H. rewrite H. unfold read_sysfs. destruct (Z.ltb_spec (zl content) 200); [unfold zl in *; lia|reflexivity].
Qed.
(** such files exist: 64 even processors, as for a node of a machine that numbers its sockets alternately *)
Definition evens (n : nat) : list item := map (fun i => let v := Z.of_nat (2 * i) in One (if v <? 10 then [48 + v] else if v <? 100 then [48 + v / 10; 48 + v mod 10] else [49; 48 + (v - 100) / 10; 48 + (v - 100) mod 10])) (seq 0 n).
Theorem C80_long_file_exists : Forall (item_ok 1023) (evens 64) /\ flat_map item_lps (evens 64) = map (fun i => Z.of_nat (2 * i)) (seq 0 64) /\ length (list_text (evens 64)) = 200%nat.
Proof.
  split; [|split; reflexivity]. unfold evens. apply Forall_forall. intros it H. apply in_map_iff in H. destruct H as (i & <- & Hi). apply in_seq in Hi. set (v := Z.of_nat (2 * i)). assert (0 <= v < 128) by lia. clearbody v. cbn [item_ok].
  assert (M1 := Z.div_mod v 10). assert (M2 := Z.mod_pos_bound v 10). assert (M3 := Z.div_mod (v - 100) 10). assert (M4 := Z.mod_pos_bound (v - 100) 10).
  unfold decimal, value, is_digit. destruct (Z.ltb_spec v 10); [|destruct (Z.ltb_spec v 100)]; (eexists; split; [split; [cbn [length]; lia|split; [repeat constructor; lia|reflexivity]]|cbn [fold_left]; lia]).
Qed.

(** ** C81 numbers *)
Theorem C81_number : forall f v, number_file f v -> read_number (Some f) = Ok (Some v).
Proof. exact read_number_ok. Qed.
Theorem C81_not_a_number : forall c f, ~ is_digit c -> (length (c :: f) < 200)%nat -> read_number (Some (c :: f)) = Ok None /\ read_number (Some []) = Ok None /\ read_number None = Ok None.
Proof.
  intros c f HC HL. split; [|split; reflexivity]. unfold read_number, read_sysfs. destruct (Z.ltb_spec (zl (c :: f)) 200); [|unfold zl in *; lia]. cbn [bind].
  unfold parse_number, parse_digits. destruct (Z.leb_spec 0 (zl ((c :: f) ++ [0]))) as [_|]; [|unfold zl in *; lia]. cbn [guard bind digits].
  destruct (Z.ltb_spec 0 (Z.min (zl ((c :: f) ++ [0])) (0 + 9))) as [_|B]; [|unfold zl in B; cbn [app length] in B; lia]. unfold at_. cbn [Z.leb Z.compare Z.to_nat app nth_error bind].
  unfold is_digit in HC. destruct (Z.ltb_spec c 48); [reflexivity|]. destruct (Z.ltb_spec 57 c); [reflexivity|]. lia.
Qed.
Theorem C81_nonvacuous : number_file [51; 50; 75; 10] 32768 /\ number_file [49; 77] 1048576 /\ number_file [55; 10] 7.
Proof.
  repeat split.
  - exists [51; 50], [75], [10], 32. repeat split; cbn; try lia; [repeat constructor; unfold is_digit; lia|right; reflexivity|right; left; split; [reflexivity|lia]].
  - exists [49], [77], [], 1. repeat split; cbn; try lia; [repeat constructor; unfold is_digit; lia|left; reflexivity|right; right; split; [reflexivity|lia]].
  - exists [55], [], [10], 7. repeat split; cbn; try lia; [repeat constructor; unfold is_digit; lia|right; reflexivity|left; split; [reflexivity|lia]].
Qed.

(** ** C82 processor lists *)
(** A well-formed list yields exactly the processors it names, in order. Terminated by a NUL, possibly after a newline, with the end given before or after that NUL *)
Theorem C82_expand_list_partial : forall max_lp its nl list_end, Forall (item_ok max_lp) its -> its <> [] -> (nl = [] \/ nl = [10]) ->
  zl (list_text its ++ nl) <= list_end <= zl (list_text its ++ nl) + 1 -> list_end < 2 ^ 64 ->
  expand_list (list_text its ++ nl ++ [0]) list_end max_lp = Ok (flat_map item_lps its).
Proof. intros max_lp its nl le H1 H2 H3 H4 H5. apply expand_list_ok; try assumption. unfold kNotFound. lia. Qed.
(** Refuted for the empty list that the kernel shows for a NUMA node without processors: the program aborts *)
Theorem C82_empty_list_refuted : forall max_lp, expand_list (list_text [] ++ [10] ++ [0]) 2 max_lp = Abort.
Proof. reflexivity. Qed.
(** Malformed lists are not rejected: after "," or "-" a missing number counts as 0 *)
Theorem C82_malformed_refuted : forall max_lp, 0 <= max_lp -> expand_list [48; 44; 10; 0] 4 max_lp = Ok [0; 0] /\ expand_list [48; 45; 10; 0] 4 max_lp = Ok [0].
Proof.
  intros m Hm. destruct m as [|q|q]; [split; reflexivity|split; reflexivity|lia].
Qed.
(** "0-3,8,10-11" with 16 processors *)
Definition ex_list : list item := [Range [48] [51]; One [56]; Range [49; 48] [49; 49]].
Theorem C82_nonvacuous : Forall (item_ok 15) ex_list /\ flat_map item_lps ex_list = [0; 1; 2; 3; 8; 10; 11].
Proof.
  split; [|reflexivity]. unfold ex_list, item_ok, decimal, is_digit. repeat constructor.
  - exists 0, 3. repeat split; cbn; try lia; repeat constructor; lia.
  - exists 8. repeat split; cbn; try lia; repeat constructor; lia.
  - exists 10, 11. repeat split; cbn; try lia; repeat constructor; lia.
Qed.

(** ** C83 the topology. A machine of n processors: ids of the package, of the core within the package and of the L3 cache, L2 and L3 sizes in bytes, and the processors of each NUMA node *)
Record machine := { m_package : nat -> Z; m_core : nat -> Z; m_cluster : nat -> option Z; m_l2 : nat -> option Z; m_l3 : nat -> option Z; m_nodes : list (list item) }.
Definition optional_number (f : option (list Z)) (v : option Z) : Prop := match v with Some v => exists t, f = Some t /\ number_file t v | None => f = None end.
(** sysfs shows that machine *)
Definition shows (S : sysfs) (n : nat) (m : machine) : Prop :=
  (forall lp, (lp < n)%nat -> optional_number (f_package S lp) (Some (m_package m lp)) /\ optional_number (f_core S lp) (Some (m_core m lp)) /\
     optional_number (f_cluster S lp) (m_cluster m lp) /\ optional_number (f_l2 S lp) (m_l2 m lp) /\ optional_number (f_l3 S lp) (m_l3 m lp)) /\
  (forall i its, nth_error (m_nodes m) i = Some its -> its <> [] /\ Forall (item_ok (Z.of_nat n - 1)) its /\ line_of (f_node S i) (list_text its)) /\
  f_node S (length (m_nodes m)) = None.
(** limits of the representation: 1024 processors, 255 packages, 16 processors per core *)
Definition within_limits (n : nat) (m : machine) : Prop :=
  (1 <= n <= 1024)%nat /\ (length (nodup Z.eq_dec (map (m_package m) (seq 0 n))) <= 255)%nat /\
  forall lp, (lp < n)%nat -> (length (filter (fun l => (m_package m l =? m_package m lp)%Z && (m_core m l =? m_core m lp)%Z) (seq 0 n)) <= 16)%nat.
Lemma PK_nodup n pk : NoDup (PK n pk) /\ incl (PK n pk) (map pk (seq 0 n)).
Proof.
  split.
  - assert (G : forall vs rm, NoDup rm -> NoDup (ins_all rm vs)).
    { induction vs as [|v vs IH]; intros rm H; [exact H|]. cbn [ins_all fold_left]. apply IH. unfold ins. destruct (index_of v rm) eqn:E; [exact H|].
      apply index_of_none in E. apply (Permutation_NoDup (l := v :: rm)); [apply Permutation_cons_append|]. constructor; [exact E|exact H]. }
    apply G. constructor.
  - intros v H. apply ins_all_in in H. destruct H as [[]|H]; exact H.
Qed.
Definition topo (n : nat) (m : machine) : Topology :=
  {| packages := map (the_package n (m_package m) (m_core m) (m_cluster m) (m_l2 m) (m_l3 m)) (seq 0 (length (PK n (m_package m)))); lps := map (final n (m_package m) (m_core m) (m_cluster m) (m_nodes m)) (seq 0 n) |}.
Lemma topo_ok S n m fuel : shows S n m -> within_limits n m -> (length (m_nodes m) < fuel)%nat -> topology S n fuel = Ok (topo n m).
Proof.
  intros (HA & HB & HE) (Hn & HP & HS) HF. apply topology_ok; try assumption.
  - intros lp L. apply HA, L.
  - intros lp L. apply HA, L.
  - intros lp L. apply HA, L.
  - intros lp L. apply HA, L.
  - intros lp L. apply HA, L.
  - destruct (PK_nodup n (m_package m)) as [ND IN]. assert (L := NoDup_incl_length ND (fun x Hx => proj2 (nodup_In Z.eq_dec _ x) (IN x Hx))). unfold zl. lia.
  - intros lp L. unfold zl. specialize (HS lp L). lia.
Qed.
Lemma nth_seq_map {A} (f : nat -> A) n i x : nth_error (map f (seq 0 n)) i = Some x <-> (i < n)%nat /\ x = f i.
Proof.
  rewrite nth_error_map. destruct (Nat.lt_ge_cases i n) as [L|L].
  - rewrite (nth_error_nth' _ 0%nat) by (rewrite seq_length; lia). rewrite seq_nth by lia. cbn [option_map Nat.add]. split; [intros [= <-]; split; [exact L|reflexivity]|intros [_ ->]; reflexivity].
  - rewrite (proj2 (nth_error_None _ _)) by (rewrite seq_length; lia). cbn. split; [discriminate|lia].
Qed.
(** Every processor has its package, cluster and core among those listed, and is in that cluster's and core's set; its SMT number is below the core's number of processors *)
Theorem C83_indices : forall S n m fuel, shows S n m -> within_limits n m -> (length (m_nodes m) < fuel)%nat ->
  exists T, topology S n fuel = Ok T /\ length (lps T) = n /\
    forall lp, (lp < n)%nat -> exists L P C K, nth_error (lps T) lp = Some L /\ 0 <= l_package L /\ 0 <= l_cluster L /\ 0 <= l_core L /\
      nth_error (packages T) (Z.to_nat (l_package L)) = Some P /\ nth_error (p_clusters P) (Z.to_nat (l_cluster L)) = Some C /\ nth_error (p_cores P) (Z.to_nat (l_core L)) = Some K /\
      In lp (c_lps C) /\ In lp K /\ 0 <= l_smt L < Z.of_nat (length K).
Proof.
  intros S n m fuel HS HW HF. exists (topo n m). split; [apply topo_ok; assumption|]. destruct HW as (Hn & _ & _). split; [cbn [topo lps]; rewrite map_length, seq_length; reflexivity|].
  intros lp L. set (pk := m_package m). set (co := m_core m). set (cl := m_cluster m).
  assert (R0 := pkno_range n pk Hn lp L). assert (R1 := cluster_range n pk cl Hn lp L). assert (R2 := core_range n pk co Hn lp L). unfold zl in *.
  exists (final n pk co cl (m_nodes m) lp), (the_package n pk co cl (m_l2 m) (m_l3 m) (Z.to_nat (pkno n pk lp))).
  exists (cluster_of (m_l2 m) (m_l3 m) (filter (in_cluster n pk cl (Z.to_nat (pkno n pk lp)) (Z.to_nat (cluster_in cl (ALL n pk) (lp, pkno n pk lp)))) (seq 0 n))).
  exists (filter (in_core n pk co (Z.to_nat (pkno n pk lp)) (Z.to_nat (core_in co (ALL n pk) (lp, pkno n pk lp)))) (seq 0 n)).
  cbn [topo packages lps]. fold pk co cl. cbn [final with_node lprec l_package l_cluster l_core l_smt]. rewrite !nth_seq_map.
  split; [split; [exact L|reflexivity]|]. split; [lia|]. split; [lia|]. split; [lia|]. split; [split; [lia|reflexivity]|]. cbn [the_package p_clusters p_cores]. rewrite !Z2Nat.id by lia. rewrite !nth_seq_map.
  split; [split; [lia|reflexivity]|]. split; [split; [lia|reflexivity]|].
  assert (I1 : In lp (filter (in_cluster n pk cl (Z.to_nat (pkno n pk lp)) (Z.to_nat (cluster_in cl (ALL n pk) (lp, pkno n pk lp)))) (seq 0 n))).
  { apply filter_In. split; [apply in_seq; lia|]. unfold in_cluster. rewrite !Z2Nat.id by lia. rewrite !Z.eqb_refl. reflexivity. }
  split; [exact I1|].
  assert (I2 : In lp (filter (in_core n pk co (Z.to_nat (pkno n pk lp)) (Z.to_nat (core_in co (ALL n pk) (lp, pkno n pk lp)))) (seq 0 n))).
  { apply filter_In. split; [apply in_seq; lia|]. unfold in_core. rewrite !Z2Nat.id by lia. rewrite !Z.eqb_refl. reflexivity. }
  split; [exact I2|]. unfold smtno. rewrite same_count by lia. unfold zl. split; [lia|].
  assert (EQ : filter (in_core n pk co (Z.to_nat (pkno n pk lp)) (Z.to_nat (core_in co (ALL n pk) (lp, pkno n pk lp)))) (seq 0 n) = filter (fun l => (pk l =? pk lp) && (co l =? co lp)) (seq 0 n)).
  { apply filter_ext_in. intros x Hx. apply in_seq in Hx. unfold in_core. rewrite !Z2Nat.id by lia. assert (J := pkno_inj n pk Hn x lp ltac:(lia) L). assert (J' := core_inj n pk co Hn x lp ltac:(lia) L).
    destruct (Z.eqb_spec (pkno n pk x) (pkno n pk lp)) as [E|E], (Z.eqb_spec (pk x) (pk lp)); try (exfalso; tauto); [|reflexivity]. specialize (J' E). cbn [andb].
    destruct (Z.eqb_spec (core_in co (ALL n pk) (x, pkno n pk x)) (core_in co (ALL n pk) (lp, pkno n pk lp))), (Z.eqb_spec (co x) (co lp)); (reflexivity || (exfalso; tauto)). }
  rewrite EQ. replace n with (lp + (1 + (n - lp - 1)))%nat at 1 by lia. rewrite seq_app, filter_app, app_length. cbn [Nat.add seq filter]. rewrite !Z.eqb_refl. cbn [andb length]. lia.
Qed.
(** The sets are exactly the processors with that package and cluster or core, in increasing order; none is empty. Sizes are those of the first processor, in KiB *)
Theorem C83_sets : forall S n m fuel, shows S n m -> within_limits n m -> (length (m_nodes m) < fuel)%nat ->
  exists T, topology S n fuel = Ok T /\ packages T <> [] /\ forall p P, nth_error (packages T) p = Some P -> p_clusters P <> [] /\ p_cores P <> [] /\
    (forall c C, nth_error (p_clusters P) c = Some C ->
       (forall lp, In lp (c_lps C) <-> exists L, nth_error (lps T) lp = Some L /\ l_package L = Z.of_nat p /\ l_cluster L = Z.of_nat c) /\
       exists first rest, c_lps C = first :: rest /\ (forall lp, In lp rest -> (first < lp)%nat) /\
         private_kib C = option_map (fun b => b / 1024) (m_l2 m first) /\ shared_kib C = option_map (fun b => b / 1024) (m_l3 m first)) /\
    (forall c K, nth_error (p_cores P) c = Some K -> K <> [] /\
       forall lp, In lp K <-> exists L, nth_error (lps T) lp = Some L /\ l_package L = Z.of_nat p /\ l_core L = Z.of_nat c).
Proof.
  intros S n m fuel HS HW HF. exists (topo n m). split; [apply topo_ok; assumption|]. destruct HW as (Hn & _ & _). set (pk := m_package m). set (co := m_core m). set (cl := m_cluster m).
  cbn [topo packages lps]. fold pk co cl. split.
  { assert (R0 := pkno_range n pk Hn 0%nat ltac:(lia)). unfold zl in R0. destruct (length (PK n pk)); [lia|discriminate]. }
  intros p P HP. apply nth_seq_map in HP. destruct HP as [Lp ->]. cbn [the_package p_clusters p_cores]. split; [destruct (Nat.max 1 _) eqn:E; [lia|discriminate]|]. split.
  { destruct (pos_at (map pk (seq 0 n)) p Lp) as (v & Hv & EP). apply in_map_iff in Hv. destruct Hv as (lp & <- & Hlp). apply in_seq in Hlp. change (pkno n pk lp = Z.of_nat p) in EP.
    assert (R2 := core_range n pk co Hn lp ltac:(lia)). rewrite EP in R2. unfold zl in R2. destruct (length (cos_of co (ALL n pk) (Z.of_nat p))); [lia|discriminate]. }
  split.
  - intros c C HC. apply nth_seq_map in HC. destruct HC as [Lc ->]. cbn [cluster_of c_lps private_kib shared_kib]. split.
    + intros lp. rewrite filter_In, in_seq. unfold in_cluster. split.
      * intros [H1 H2]. apply andb_prop in H2. destruct H2 as [H2 H3]. apply Z.eqb_eq in H2, H3. eexists. rewrite nth_seq_map. split; [split; [lia|reflexivity]|]. split; assumption.
      * intros (L & HL & H2 & H3). apply nth_seq_map in HL. destruct HL as [HL ->]. cbn [final with_node lprec l_package l_cluster] in H2, H3. rewrite H2 in *. rewrite H3. rewrite !Z.eqb_refl. split; [lia|reflexivity].
    + destruct (cluster_nonempty n pk cl Hn p c Lp Lc) as (lp & L & HI).
      assert (HI' : In lp (filter (in_cluster n pk cl p c) (seq 0 n))) by (apply filter_In; split; [apply in_seq; lia|exact HI]).
      assert (ST : forall k s, exists a b, filter (in_cluster n pk cl p c) (seq s k) = [] \/ filter (in_cluster n pk cl p c) (seq s k) = a :: b /\ (forall x, In x b -> (a < x)%nat)).
      { induction k as [|k IH]; intros s; [exists 0%nat, []; left; reflexivity|]. cbn [seq filter]. destruct (in_cluster n pk cl p c s); [|apply IH].
        exists s, (filter (in_cluster n pk cl p c) (seq (Datatypes.S s) k)). right. split; [reflexivity|]. intros x Hx. apply filter_In in Hx. destruct Hx as [Hx _]. apply in_seq in Hx. lia. }
      destruct (ST n 0%nat) as (a & b & [E|[E H]]); [rewrite E in HI'; destruct HI'|]. exists a, b. rewrite E. cbn [hd]. split; [reflexivity|]. split; [exact H|].
      split; [destruct (m_l2 m a)|destruct (m_l3 m a)]; cbn [option_map]; f_equal; rewrite Z.shiftr_div_pow2 by lia; reflexivity.
  - intros c K HC. apply nth_seq_map in HC. destruct HC as [Lc ->]. split.
    + destruct (core_nonempty n pk co Hn p c Lc) as (lp & L & HI). intros E. assert (HI' : In lp (filter (in_core n pk co p c) (seq 0 n))) by (apply filter_In; split; [apply in_seq; lia|exact HI]). rewrite E in HI'. destruct HI'.
    + intros lp. rewrite filter_In, in_seq. unfold in_core. split.
      * intros [H1 H2]. apply andb_prop in H2. destruct H2 as [H2 H3]. apply Z.eqb_eq in H2, H3. eexists. rewrite nth_seq_map. split; [split; [lia|reflexivity]|]. split; assumption.
      * intros (L & HL & H2 & H3). apply nth_seq_map in HL. destruct HL as [HL ->]. cbn [final with_node lprec l_package l_core] in H2, H3. rewrite H2 in *. rewrite H3. rewrite !Z.eqb_refl. split; [lia|reflexivity].
Qed.
(** Two processors are in the same package, core or cluster exactly if sysfs says so; SMT numbers count the earlier processors of the core *)
Theorem C83_grouping : forall S n m fuel, shows S n m -> within_limits n m -> (length (m_nodes m) < fuel)%nat ->
  exists T, topology S n fuel = Ok T /\ forall a b A B, nth_error (lps T) a = Some A -> nth_error (lps T) b = Some B ->
    (l_package A = l_package B <-> m_package m a = m_package m b) /\
    (l_package A = l_package B -> (l_core A = l_core B <-> m_core m a = m_core m b)) /\
    (l_package A = l_package B -> forall u v, m_cluster m a = Some u -> m_cluster m b = Some v -> (l_cluster A = l_cluster B <-> u = v)) /\
    (m_cluster m a = None -> l_cluster A = 0) /\
    l_smt A = Z.of_nat (length (filter (fun l => (m_package m l =? m_package m a) && (m_core m l =? m_core m a)) (seq 0 a))).
Proof.
  intros S n m fuel HS HW HF. exists (topo n m). split; [apply topo_ok; assumption|]. destruct HW as (Hn & _ & _). intros a b A B HA HB. cbn [topo lps] in HA, HB. apply nth_seq_map in HA, HB. destruct HA as [La ->], HB as [Lb ->].
  cbn [final with_node lprec l_package l_core l_cluster l_smt]. split; [apply pkno_inj; assumption|]. split; [apply core_inj; assumption|]. split.
  - intros E u v EU EV. destruct (cluster_has n (m_package m) (m_cluster m) Hn a u La EU) as [i Hi], (cluster_has n (m_package m) (m_cluster m) Hn b v Lb EV) as [j Hj].
    unfold cluster_in. cbn [fst snd]. rewrite EU, EV. rewrite E in *. apply (pos_inj _ _ _ _ _ Hi Hj).
  - split; [intros E; unfold cluster_in; cbn [fst]; rewrite E; reflexivity|]. unfold smtno. rewrite same_count by lia. reflexivity.
Qed.
(** Without package or core numbers for some processor, the result is empty, which callers must check *)
Theorem C83_unknown : forall S n m fuel lp, (forall l, (l < lp)%nat -> optional_number (f_package S l) (Some (m_package m l))) -> (lp < n)%nat -> (lp <= 255)%nat -> f_package S lp = None ->
  topology S n fuel = Ok {| packages := []; lps := [] |}.
Proof.
  intros S n m fuel lp HA HL H255 HN. unfold topology, detect_packages.
  assert (G : forall k s rm acc, (s + k <= lp)%nat -> zl rm + Z.of_nat k <= 255 -> forall rest, packages_loop S (seq s k ++ lp :: rest) rm acc = Ok None).
  { induction k as [|k IH]; intros s rm acc Hs HR rest; cbn [seq app packages_loop].
    - rewrite HN. reflexivity.
    - destruct (HA s ltac:(lia)) as (t & -> & HT). assert (IL := ins_length rm (m_package m s)). rewrite (remap_ok 255 rm t _ HT) by (unfold zl in *; lia). cbn [bind]. apply IH; unfold zl in *; lia. }
  replace (seq 0 n) with (seq 0 lp ++ lp :: seq (Datatypes.S lp) (n - lp - 1)).
  - rewrite G by (unfold zl; cbn [length]; lia). reflexivity.
  - replace n with (lp + (1 + (n - lp - 1)))%nat at 2 by lia. rewrite seq_app. reflexivity.
Qed.
(** two packages with two cores of two threads; L3 shared by a package *)
Definition ex_machine : machine :=
  {| m_package := fun lp => Z.of_nat (lp / 2 mod 2) * 3; m_core := fun lp => Z.of_nat (lp mod 2) * 4; m_cluster := fun lp => Some (Z.of_nat (lp / 2 mod 2)); m_l2 := fun _ => Some (512 * 1024); m_l3 := fun lp => None;
     m_nodes := [[Range [48] [49]; Range [52] [53]]; [Range [50] [51]; Range [54] [55]]] |}.
Definition ex_file (v : Z) : option (list Z) := Some [48 + v; 10].
Definition ex_sysfs : sysfs :=
  {| f_package := fun lp => ex_file (Z.of_nat (lp / 2 mod 2) * 3); f_core := fun lp => ex_file (Z.of_nat (lp mod 2) * 4); f_cluster := fun lp => ex_file (Z.of_nat (lp / 2 mod 2)); f_l2 := fun _ => Some [53; 49; 50; 75; 10]; f_l3 := fun _ => None;
     f_node := fun i => match i with O => Some [48; 45; 49; 44; 52; 45; 53; 10] | S O => Some [50; 45; 51; 44; 54; 45; 55; 10] | _ => None end |}.
Lemma ex_number v : 0 <= v <= 9 -> optional_number (ex_file v) (Some v).
Proof.
  intros H. exists [48 + v; 10]. split; [reflexivity|]. exists [48 + v], [], [10], v. split; [reflexivity|]. split; [split; [cbn; lia|split; [repeat constructor; unfold is_digit; lia|unfold value; cbn [fold_left]; lia]]|].
  split; [right; reflexivity|left; split; reflexivity].
Qed.
Theorem C83_nonvacuous : shows ex_sysfs 8 ex_machine /\ within_limits 8 ex_machine /\
  exists T, topology ex_sysfs 8 9 = Ok T /\ map l_package (lps T) = [0; 0; 1; 1; 0; 0; 1; 1] /\ map l_core (lps T) = [0; 1; 0; 1; 0; 1; 0; 1] /\ map l_smt (lps T) = [0; 0; 0; 0; 1; 1; 1; 1] /\ map l_node (lps T) = [0; 0; 1; 1; 0; 0; 1; 1] /\
    map p_cores (packages T) = [[[0; 4]; [1; 5]]; [[2; 6]; [3; 7]]]%nat /\ map (fun P => map private_kib (p_clusters P)) (packages T) = [[Some 512]; [Some 512]].
Proof.
  split; [|split].
  - split; [|split].
    + intros lp _. cbn [ex_sysfs ex_machine f_package f_core f_cluster f_l2 f_l3 m_package m_core m_cluster m_l2 m_l3]. assert (B1 := Nat.mod_upper_bound (lp / 2) 2). assert (B2 := Nat.mod_upper_bound lp 2).
      repeat split; try (apply ex_number; lia). exists [53; 49; 50; 75; 10]. split; [reflexivity|]. exists [53; 49; 50], [75], [10], 512. repeat split; cbn; try lia; [repeat constructor; unfold is_digit; lia|right; reflexivity|right; left; split; reflexivity].
    + intros i its H. assert (DG : forall a b, 48 <= a <= b -> b <= 55 -> item_ok 7 (Range [a] [b])).
      { intros a b H1 H2. exists (a - 48), (b - 48). unfold decimal, value. cbn [fold_left length]. repeat split; try lia; repeat constructor; unfold is_digit; lia. }
      destruct i as [|[|i]]; cbn in H; [| |destruct i; discriminate H]; injection H as <-; (split; [discriminate|]); (split; [repeat constructor; apply DG; lia|]); exists [10]; (split; [right; reflexivity|]); (split; [reflexivity|cbn; lia]).
    + reflexivity.
  - split; [lia|]. split; [cbn; lia|]. intros lp H. do 8 (destruct lp as [|lp]; [cbn; lia|]). lia.
  - eexists. split; [vm_compute; reflexivity|]. repeat split; reflexivity.
Qed.

(** ** C84 NUMA nodes *)
(** The node of a processor is the last one that lists it, 0 if none does. Holds when the nodes are numbered consecutively from 0, up to 256 *)
Theorem C84_node_partial : forall S n m fuel, shows S n m -> within_limits n m -> (length (m_nodes m) < fuel)%nat -> (length (m_nodes m) <= 256)%nat ->
  exists T, topology S n fuel = Ok T /\ forall lp L, nth_error (lps T) lp = Some L ->
    (forall i its, nth_error (m_nodes m) i = Some its -> In (Z.of_nat lp) (flat_map item_lps its) ->
       (forall j its', (i < j)%nat -> nth_error (m_nodes m) j = Some its' -> ~ In (Z.of_nat lp) (flat_map item_lps its')) -> l_node L = Z.of_nat i) /\
    ((forall i its, nth_error (m_nodes m) i = Some its -> ~ In (Z.of_nat lp) (flat_map item_lps its)) -> l_node L = 0).
Proof.
  intros S n m fuel HS HW HF H256. exists (topo n m). split; [apply topo_ok; assumption|]. intros lp L HL. cbn [topo lps] in HL. apply nth_seq_map in HL. destruct HL as [Llp ->]. cbn [final with_node l_node]. split.
  - intros i its Hi HI HN. rewrite (node_from_last _ _ 0%nat 0 i its Hi HI HN). cbn [Nat.add]. assert (i < length (m_nodes m))%nat by (apply nth_error_Some; congruence). apply Z.mod_small. change (2 ^ 8) with 256. lia.
  - apply node_from_none.
Qed.
(** Refuted otherwise: with nodes 0 and 2 only, processor 1 of node 2 is reported in node 0 *)
Definition gap_sysfs (node1 : option (list Z)) : sysfs :=
  {| f_package := fun _ => ex_file 0; f_core := fun lp => ex_file (Z.of_nat (lp mod 2)); f_cluster := fun lp => None; f_l2 := fun _ => None; f_l3 := fun _ => None;
     f_node := fun i => match i with O => Some [48; 10] | S O => node1 | S (S O) => Some [49; 10] | _ => None end |}.
Theorem C84_gap_refuted : exists T L, topology (gap_sysfs None) 2 4 = Ok T /\ nth_error (lps T) 1 = Some L /\ l_node L = 0 /\ f_node (gap_sysfs None) 2 = Some [49; 10].
Proof. eexists _, _. split; [vm_compute; reflexivity|]. repeat split. Qed.
(** ... and if node 1 has memory but no processors, the program aborts *)
Theorem C84_memory_only_node_refuted : topology (gap_sysfs (Some [10])) 2 4 = Abort.
Proof. vm_compute. reflexivity. Qed.

(** ** C85 caches *)
(** cores sharing a cache: the listed processors that are the first of their core *)
Definition first_of_core (m : machine) (lp : Z) : bool := Z.of_nat (length (filter (fun l => (m_package m l =? m_package m (Z.to_nat lp)) && (m_core m l =? m_core m (Z.to_nat lp))) (seq 0 (Z.to_nat lp)))) =? 0.
Definition sharing (m : machine) (d : desc) : Z := Z.max 1 (Z.of_nat (length (filter (first_of_core m) (flat_map item_lps (d_shared d))))).
(** one core's share of a cache *)
Definition share (m : machine) (d : desc) : Cache :=
  {| size_kib := d_kib d / sharing m d; sets := d_sets d / sharing m d; bytes_per_line := d_line d; associativity := d_ways d; cores_sharing := sharing m d |}.
(** the first listed data or unified cache of a level *)
Definition level_cache (ds : list desc) (level : Z) : option desc := List.find (fun d => match d_kind d with InstructionCache => false | _ => d_level d =? level end) ds.
Definition describes_caches (n : nat) (es : list entry) (ds : list desc) : Prop := Forall2 (entry_of n) es ds.
Lemma detected S n m : shows S n m -> within_limits n m -> exists sizes ls, detect_packages S n = Ok (Some (sizes, ls)) /\ length ls = n /\ forall d, desc_ok n d -> cores_of (map l_smt ls) d = sharing m d.
Proof.
  intros (HA & _ & _) (Hn & HP & HS). eexists _, _. split; [apply (detect_packages_ok S n (m_package m) (m_core m) (m_cluster m)); try assumption|].
  - intros lp L. apply HA, L.
  - intros lp L. apply HA, L.
  - intros lp L. apply HA, L.
  - destruct (PK_nodup n (m_package m)) as [ND IN]. assert (L := NoDup_incl_length ND (fun x Hx => proj2 (nodup_In Z.eq_dec _ x) (IN x Hx))). unfold zl. lia.
  - intros lp L. unfold zl. specialize (HS lp L). lia.
  - split; [rewrite map_length, seq_length; reflexivity|]. intros d HD. unfold cores_of, sharing. do 3 f_equal. unfold firsts. apply filter_ext_in. intros lp Hlp.
    destruct HD as (_ & _ & _ & _ & _ & _ & _ & HF & _). apply item_lps_range in HF. rewrite Forall_forall in HF. specialize (HF lp Hlp). cbn in HF.
    rewrite map_map. rewrite (nth_indep _ 1 ((fun x => l_smt (lprec n (m_package m) (m_core m) (m_cluster m) x)) 0%nat)) by (rewrite map_length, seq_length; lia). rewrite (map_nth (fun x => l_smt (lprec n (m_package m) (m_core m) (m_cluster m) x))), seq_nth by lia.
    cbn [Nat.add lprec l_smt]. unfold smtno. rewrite same_count by lia. reflexivity.
Qed.
Lemma level_first ds l : level_cache ds (Z.of_nat l) = first_of ds l.
Proof. unfold level_cache, first_of. induction ds as [|d ds IH]; [reflexivity|]. cbn [List.find]. unfold is_data at 1. destruct (d_kind d); cbn [andb]; [destruct (d_level d =? Z.of_nat l); [reflexivity|exact IH]|exact IH|destruct (d_level d =? Z.of_nat l); [reflexivity|exact IH]]. Qed.
Lemma per_core_share S n m : shows S n m -> within_limits n m -> exists sizes ls, detect_packages S n = Ok (Some (sizes, ls)) /\ length ls = n /\ (forall d, desc_ok n d -> cores_of (map l_smt ls) d = sharing m d /\ per_core (map l_smt ls) d = share m d).
Proof.
  intros HS HW. destruct (detected S n m HS HW) as (sizes & ls & H1 & H2 & H3). exists sizes, ls. split; [exact H1|]. split; [exact H2|]. intros d HD. specialize (H3 d HD). split; [exact H3|]. unfold per_core, share. rewrite H3. reflexivity.
Qed.
(** The caches reported are one core's share of the first data or unified cache of each level (no L3 if there is none or if it is a small one shared by 16 cores or more).
    Holds if no cache has fewer KiB than cores and, for each, line size times associativity plus its common factor with 1024 is at least 1024, or the size divides evenly *)
Theorem C85_data_caches_partial : forall S n m es ds d1 d2, shows S n m -> within_limits n m -> describes_caches n es ds -> level_cache ds 1 = Some d1 -> level_cache ds 2 = Some d2 ->
  (forall d, In d ds -> sharing m d <= d_kib d) ->
  (forall l d, In l [1; 2; 3] -> level_cache ds l = Some d -> 1024 <= d_line d * d_ways d + Z.gcd (d_line d * d_ways d) 1024 \/ d_kib d mod sharing m d = 0) ->
  data_caches S n es = Ok (Some [no_cache; share m d1; share m d2;
    match level_cache ds 3 with None => no_cache | Some d3 => if (16 <=? sharing m d3) && (d_kib d3 / sharing m d3 <=? 512) then no_cache else share m d3 end]).
Proof.
  intros S n m es ds d1 d2 HS HW HF F1 F2 HC HG. destruct (per_core_share S n m HS HW) as (sizes & ls & HP & HL & HE).
  assert (HD : forall d, In d ds -> desc_ok n d).
  { intros d Hd. clear -HF Hd. induction HF as [|e d' es ds HE HF IH]; [destruct Hd|]. destruct Hd as [->|Hd]; [|apply IH, Hd]. apply HE. }
  assert (HI : forall l d, first_of ds l = Some d -> In d ds) by (intros l d H; unfold first_of in H; apply find_some in H; tauto).
  change 1 with (Z.of_nat 1) in F1. change 2 with (Z.of_nat 2) in F2. rewrite level_first in F1, F2. change 3 with (Z.of_nat 3). rewrite level_first.
  destruct HW as (Hn & _ & _). 
  rewrite (data_caches_ok S n sizes ls es ds d1 d2 HP HL Hn HF).
  - destruct (HE d1 (HD _ (HI _ _ F1))) as [_ ->]. destruct (HE d2 (HD _ (HI _ _ F2))) as [_ ->]. destruct (first_of ds 3) as [d3|] eqn:F3; [|reflexivity]. unfold slc. destruct (HE d3 (HD _ (HI _ _ F3))) as [_ ->]. reflexivity.
  - intros d Hd. destruct (HE d (HD d Hd)) as [-> _]. apply HC, Hd.
  - exact F1.
  - exact F2.
  - intros l d L H. unfold geometry_ok. destruct (HE d (HD d (HI l d H))) as [-> _]. apply (HG (Z.of_nat l)); [destruct l as [|[|[|[|l]]]]; cbn; auto; lia|]. rewrite level_first. exact H.
Qed.
(** Without an L1 data or an L2 cache, or without packages, the result is null *)
Theorem C85_unknown : forall S n m es ds, shows S n m -> within_limits n m -> describes_caches n es ds -> (forall d, In d ds -> sharing m d <= d_kib d) ->
  level_cache ds 1 = None \/ level_cache ds 2 = None -> data_caches S n es = Ok None.
Proof.
  intros S n m es ds HS HW HF HC HN. destruct (per_core_share S n m HS HW) as (sizes & ls & HP & HL & HE). destruct HW as (Hn & _ & _).
  assert (HD : forall d, In d ds -> desc_ok n d).
  { intros d Hd. clear -HF Hd. induction HF as [|e d' es ds HE HF IH]; [destruct Hd|]. destruct Hd as [->|Hd]; [|apply IH, Hd]. apply HE. }
  change 1 with (Z.of_nat 1) in HN. change 2 with (Z.of_nat 2) in HN. rewrite !level_first in HN. apply (data_caches_missing S n sizes ls es ds HP HL Hn HF); [|exact HN].
  intros d Hd. destruct (HE d (HD d Hd)) as [-> _]. apply HC, Hd.
Qed.
(** the share of a core times the cores never exceeds the cache, and the number of sets agrees with the size up to one *)
Theorem C85_share_bounds : forall n m d, desc_ok n d -> size_kib (share m d) * sharing m d <= d_kib d /\ sets (share m d) * sharing m d <= d_sets d.
Proof.
  intros n m d _. cbn [share size_kib sets]. assert (1 <= sharing m d) by (unfold sharing; lia). split; rewrite Z.mul_comm; apply Z.mul_div_le; lia.
Qed.
(** Refuted in general: an 11-way L3 with 64-byte lines and 22528 sets (15488 KiB) shared by 9 cores has consistent files, yet the consistency check aborts the program: 2503 sets against 2501 *)
Definition ex_text (s : list Z) : option (list Z) := Some (s ++ [10]).
Definition ex_l1 : desc := {| d_kind := DataCache; d_level := 1; d_kib := 32; d_ways := 8; d_sets := 64; d_line := 64; d_shared := [One [48]] |}.
Definition ex_l1i : desc := {| d_kind := InstructionCache; d_level := 1; d_kib := 32; d_ways := 8; d_sets := 64; d_line := 64; d_shared := [One [48]] |}.
Definition ex_l2 : desc := {| d_kind := UnifiedCache; d_level := 2; d_kib := 1024; d_ways := 16; d_sets := 1024; d_line := 64; d_shared := [One [48]] |}.
Definition ex_l3 : desc := {| d_kind := UnifiedCache; d_level := 3; d_kib := 15488; d_ways := 11; d_sets := 22528; d_line := 64; d_shared := [Range [48] [56]] |}.
Definition ex_e (k : kind) (level kib ways sets shared : list Z) : entry :=
  {| e_type := ex_text (kind_text k); e_level := ex_text level; e_size := ex_text (kib ++ [75]); e_ways := ex_text ways; e_sets := ex_text sets; e_shared := ex_text shared |}.
Definition ex_entries : list entry :=
  [ex_e DataCache [49] [51; 50] [56] [54; 52] [48]; ex_e InstructionCache [49] [51; 50] [56] [54; 52] [48]; ex_e UnifiedCache [50] [49; 48; 50; 52] [49; 54] [49; 48; 50; 52] [48];
   ex_e UnifiedCache [51] [49; 53; 52; 56; 56] [49; 49] [50; 50; 53; 50; 56] [48; 45; 56]].
Definition nine : machine := {| m_package := fun _ => 0; m_core := fun lp => Z.of_nat (lp mod 10); m_cluster := fun _ => None; m_l2 := fun _ => None; m_l3 := fun _ => None; m_nodes := [] |}.
Definition nine_sysfs : sysfs :=
  {| f_package := fun _ => ex_file 0; f_core := fun lp => ex_file (Z.of_nat (lp mod 10)); f_cluster := fun _ => None; f_l2 := fun _ => None; f_l3 := fun _ => None; f_node := fun _ => None |}.
Lemma nine_ok : shows nine_sysfs 9 nine /\ within_limits 9 nine.
Proof.
  split; [split; [|split]|].
  - intros lp _. cbn [nine_sysfs nine f_package f_core f_cluster f_l2 f_l3 m_package m_core m_cluster m_l2 m_l3]. assert (B := Nat.mod_upper_bound lp 10). repeat split; try reflexivity; apply ex_number; lia.
  - intros i its H. destruct i; discriminate H.
  - reflexivity.
  - split; [lia|]. split; [cbn; lia|]. intros lp H. do 9 (destruct lp as [|lp]; [cbn; lia|]). lia.
Qed.
Lemma ex_decimal ds v : (1 <= length ds <= 9)%nat -> forallb (fun c => (48 <=? c) && (c <=? 57)) ds = true -> value ds = v -> decimal ds v.
Proof. intros H1 H2 H3. split; [exact H1|]. split; [|exact H3]. rewrite forallb_forall in H2. apply Forall_forall. intros c Hc. specialize (H2 c Hc). apply andb_prop in H2. destruct H2 as [A B]. apply Z.leb_le in A, B. unfold is_digit. lia. Qed.
Lemma ex_line t : (length t < 199)%nat -> line_of (ex_text t) t.
Proof. intros H. exists [10]. split; [right; reflexivity|]. split; [reflexivity|]. rewrite app_length. cbn [length]. lia. Qed.
Lemma ex_entry k level kib ways sets shared d n : d_kind d = k -> desc_ok n d -> decimal level (d_level d) -> decimal kib (d_kib d) -> decimal ways (d_ways d) -> decimal sets (d_sets d) -> list_text (d_shared d) = shared -> (length shared < 199)%nat ->
  entry_of n (ex_e k level kib ways sets shared) d.
Proof.
  intros <- HD H1 H2 H3 H4 <- HL. assert (LN : forall ds v, decimal ds v -> (length ds < 150)%nat) by (intros ds v ((? & ?) & _); lia).
  split; [exact HD|]. cbn [ex_e e_type e_level e_size e_ways e_sets e_shared]. split; [apply ex_line; destruct (d_kind d); cbn; lia|].
  assert (DL : forall ds sfx v, decimal ds v -> (length sfx <= 1)%nat -> decimal_line (ex_text (ds ++ sfx)) sfx v).
  { intros ds sfx v H HS. exists ds. split; [exact H|]. apply ex_line. rewrite app_length. specialize (LN _ _ H). lia. }
  repeat split.
  - assert (P := DL level [] _ H1). rewrite app_nil_r in P. apply P. cbn; lia.
  - apply DL; [exact H2|cbn; lia].
  - assert (P := DL ways [] _ H3). rewrite app_nil_r in P. apply P. cbn; lia.
  - assert (P := DL sets [] _ H4). rewrite app_nil_r in P. apply P. cbn; lia.
  - apply ex_line. exact HL.
Qed.
Lemma ex_desc d m : In d [ex_l1; ex_l1i; ex_l2; ex_l3] -> (9 <= m)%nat -> desc_ok m d.
Proof.
  intros H Hm. assert (D1 : forall c, 48 <= c <= 56 -> decimal [c] (c - 48)) by (intros c Hc; split; [cbn; lia|]; split; [repeat constructor; unfold is_digit; lia|unfold value; cbn [fold_left]; lia]).
  assert (I0 : item_ok (Z.of_nat m - 1) (One [48])) by (exists 0; split; [apply (D1 48); lia|lia]).
  assert (I1 : item_ok (Z.of_nat m - 1) (Range [48] [56])) by (exists 0, 8; split; [apply (D1 48); lia|]; split; [apply (D1 56); lia|lia]).
  destruct H as [<-|[<-|[<-|[<-|[]]]]]; unfold desc_ok; cbn [ex_l1 ex_l1i ex_l2 ex_l3 d_kib d_ways d_sets d_line d_shared]; repeat (split; [lia|]); (split; [discriminate|]); (split; [repeat constructor; assumption|]);
    cbn; repeat constructor; cbn; lia.
Qed.
Lemma ex_described : describes_caches 9 ex_entries [ex_l1; ex_l1i; ex_l2; ex_l3].
Proof.
  unfold describes_caches, ex_entries. repeat (apply Forall2_cons; [apply ex_entry|]); try apply Forall2_nil; try reflexivity; try (apply ex_decimal; [cbn; lia|reflexivity|reflexivity]); try (apply ex_desc; [cbn; tauto|lia]); cbn; lia.
Qed.
Theorem C85_consistency_abort_refuted : shows nine_sysfs 9 nine /\ within_limits 9 nine /\ describes_caches 9 ex_entries [ex_l1; ex_l1i; ex_l2; ex_l3] /\ sharing nine ex_l3 = 9 /\ data_caches nine_sysfs 9 ex_entries = Abort.
Proof. split; [apply nine_ok|]. split; [apply nine_ok|]. split; [apply ex_described|]. split; [reflexivity|vm_compute; reflexivity]. Qed.
(** without that L3, and with an L3 of 16 ways, the hypotheses hold *)
Definition ex_l3b : desc := {| d_kind := UnifiedCache; d_level := 3; d_kib := 15488; d_ways := 16; d_sets := 15488; d_line := 64; d_shared := [Range [48] [56]] |}.
Theorem C85_nonvacuous : shows nine_sysfs 9 nine /\ within_limits 9 nine /\
  describes_caches 9 (firstn 3 ex_entries ++ [ex_e UnifiedCache [51] [49; 53; 52; 56; 56] [49; 54] [49; 53; 52; 56; 56] [48; 45; 56]]) [ex_l1; ex_l1i; ex_l2; ex_l3b] /\
  data_caches nine_sysfs 9 (firstn 3 ex_entries ++ [ex_e UnifiedCache [51] [49; 53; 52; 56; 56] [49; 54] [49; 53; 52; 56; 56] [48; 45; 56]]) = Ok (Some [no_cache; share nine ex_l1; share nine ex_l2; share nine ex_l3b]) /\
  size_kib (share nine ex_l3b) = 1720 /\ cores_sharing (share nine ex_l3b) = 9.
Proof.
  assert (DB : desc_ok 9 ex_l3b).
  { assert (H := ex_desc ex_l3 9 ltac:(cbn; tauto) ltac:(lia)). unfold desc_ok in *. cbn [ex_l3 ex_l3b d_kib d_ways d_sets d_line d_shared] in *. repeat (split; [lia|]). tauto. }
  assert (DD : describes_caches 9 (firstn 3 ex_entries ++ [ex_e UnifiedCache [51] [49; 53; 52; 56; 56] [49; 54] [49; 53; 52; 56; 56] [48; 45; 56]]) [ex_l1; ex_l1i; ex_l2; ex_l3b]).
  { unfold describes_caches, ex_entries. cbn [firstn app]. repeat (apply Forall2_cons; [apply ex_entry|]); try apply Forall2_nil; try reflexivity; try (apply ex_decimal; [cbn; lia|reflexivity|reflexivity]); try exact DB; try (apply ex_desc; [cbn; tauto|lia]); cbn; lia. }
  destruct nine_ok as [N1 N2]. split; [exact N1|]. split; [exact N2|]. split; [exact DD|]. split; [|split; reflexivity].
  rewrite (C85_data_caches_partial nine_sysfs 9 nine _ _ ex_l1 ex_l2 N1 N2 DD); [reflexivity|reflexivity|reflexivity| |].
  - intros d [<-|[<-|[<-|[<-|[]]]]]; vm_compute; discriminate.
  - intros l d Hl H. destruct Hl as [<-|[<-|[<-|[]]]]; vm_compute in H; injection H as <-; first [right; reflexivity|left; vm_compute; discriminate].
Qed.
(** a file read in three portions with an interruption *)
Theorem C80_nonvacuous : reads [49; 50; 10] 0 [Data [49; 50]; Eintr; Data [10]; Data []] /\ file_read [Data [49; 50]; Eintr; Data [10]; Data []] [] = Ok (Some [49; 50; 10; 0]).
Proof.
  split; [|reflexivity]. apply (R_data [49; 50; 10] 0 2); [cbn; lia|]. apply R_eintr. apply (R_data [49; 50; 10] 2 1); [cbn; lia|]. apply R_eof. reflexivity.
Qed.
