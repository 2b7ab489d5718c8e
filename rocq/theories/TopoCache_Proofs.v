(** Proofs about the cache detection model. *)
From Coq Require Import ZArith List Bool Lia Znumtheory.
From Verif Require Import Word Topo_Spec Topo_Model Topo_Proofs Topo_Detect Topo_Top TopoCache_Spec TopoCache_Model.
Import ListNotations.
Local Open Scope Z_scope.

Definition last_ok (t : list Z) : Prop := exists a c, t = a ++ [c] /\ c <> 0 /\ c <> 10.
Lemma strip_ok t nl : last_ok t -> (nl = [] \/ nl = [10]) -> rev (strip_rev (rev ((t ++ nl) ++ [0]))) = t.
Proof.
  intros (a & c & -> & H0 & H1) Hnl. assert (E : forall l, rev (strip_rev (c :: rev l)) = l ++ [c]).
  { intros l. cbn [strip_rev]. destruct (Z.eqb_spec c 0); [lia|]. destruct (Z.eqb_spec c 10); [lia|]. cbn [orb]. cbn [rev]. rewrite rev_involutive. reflexivity. }
  destruct Hnl as [-> | ->]; rewrite ?app_nil_r; rewrite !rev_app_distr; cbn [rev app]; cbn [strip_rev Z.eqb orb]; apply E.
Qed.
Lemma read_string_ok f t : line_of f t -> last_ok t -> read_string f = Ok t.
Proof.
  intros (nl & Hnl & -> & LT) HL. unfold read_string, read_sysfs. destruct (Z.ltb_spec (zl (t ++ nl)) 200); [|unfold zl in *; lia]. cbn [bind]. rewrite strip_ok by assumption. reflexivity.
Qed.
Lemma decimal_last ds v : decimal ds v -> last_ok ds.
Proof.
  intros ((L & _) & HF & _). destruct (exists_last (l := ds)) as (a & c & ->); [intros ->; cbn in L; lia|]. exists a, c. split; [reflexivity|].
  apply Forall_app in HF. destruct HF as [_ HF]. inversion HF as [|? ? HD _]; subst. unfold is_digit in HD. lia.
Qed.
Lemma write_sysfs_ok w f suffix v : (suffix = [] \/ suffix = [75]) -> decimal_line f suffix v -> write_sysfs w f = Ok (Some (wrap w v)).
Proof.
  intros HS (ds & HD & HL). unfold write_sysfs. rewrite (read_string_ok f (ds ++ suffix) HL).
  - cbn [bind]. rewrite <- app_assoc. assert (EX : exists c post, suffix ++ [0] = c :: post /\ nondigit c). { destruct HS as [-> | ->]; eexists _, _; (split; [reflexivity|unfold nondigit; lia]). }
    destruct EX as (c & post & -> & HC). assert (P := parse_digits_ok [] ds v c post (zl (ds ++ suffix)) HD HC). cbn [app] in P. change (zl (@nil Z)) with 0 in P. rewrite Z.add_0_l in P.
    rewrite P by (rewrite zl_app; unfold zl; lia). cbn [bind negb]. destruct (Z.leb_spec (zl ds) (zl (ds ++ suffix))); [reflexivity|rewrite zl_app in *; unfold zl in *; lia].
  - destruct HS as [-> | ->]; [rewrite app_nil_r; apply (decimal_last ds v HD)|]. exists ds, 75. split; [reflexivity|lia].
Qed.
Lemma item_last m its : Forall (item_ok m) its -> its <> [] -> last_ok (list_text its).
Proof.
  intros HF NE. assert (LI : forall i, item_ok m i -> last_ok (item_text i)).
  { intros [ds|ds1 ds2] H; cbn [item_ok item_text] in *; [destruct H as (v & H & _); apply (decimal_last _ _ H)|].
    destruct H as (v1 & v2 & _ & H & _). destruct (decimal_last _ _ H) as (a & c & -> & H0 & H1). exists (ds1 ++ [45] ++ a), c. split; [rewrite <- !app_assoc; reflexivity|tauto]. }
  induction HF as [|i its Hi HF IH]; [congruence|]. destruct its as [|j its]; [apply LI, Hi|]. destruct IH as (a & c & E & H0 & H1); [discriminate|].
  change (list_text (i :: j :: its)) with (item_text i ++ [44] ++ list_text (j :: its)). rewrite E. exists (item_text i ++ [44] ++ a), c. split; [rewrite <- !app_assoc; reflexivity|tauto].
Qed.

Definition entry_of (n : nat) (e : entry) (d : desc) : Prop :=
  desc_ok n d /\ line_of (e_type e) (kind_text (d_kind d)) /\ decimal_line (e_level e) [] (d_level d) /\ decimal_line (e_size e) [75] (d_kib d) /\
  decimal_line (e_ways e) [] (d_ways d) /\ decimal_line (e_sets e) [] (d_sets d) /\ line_of (e_shared e) (list_text (d_shared d)).
(** cores sharing: processors of the list that are the first of their core *)
Definition firsts (smts : list Z) (l : list Z) : list Z := filter (fun lp => nth (Z.to_nat lp) smts 1 =? 0) l.
Definition cores_of (smts : list Z) (d : desc) : Z := Z.max 1 (Z.of_nat (length (firsts smts (flat_map item_lps (d_shared d))))).
Definition per_core (smts : list Z) (d : desc) : Cache :=
  {| size_kib := d_kib d / cores_of smts d; sets := d_sets d / cores_of smts d; bytes_per_line := d_line d; associativity := d_ways d; cores_sharing := cores_of smts d |}.
Lemma filter_len {A} (f : A -> bool) l : (length (filter f l) <= length l)%nat.
Proof. induction l as [|x l IH]; [reflexivity|]. cbn [filter length]. destruct (f x); cbn [length]; lia. Qed.
Lemma num_cores_ok smts l : num_cores smts l = Ok (Z.of_nat (length (firsts smts l))).
Proof.
  induction l as [|lp l IH]; [reflexivity|]. cbn [num_cores firsts filter]. rewrite IH. cbn [bind]. destruct (nth_error smts (Z.to_nat lp)) as [s|] eqn:E.
  - rewrite (nth_error_nth _ _ 1 E). destruct (s =? 0); [f_equal; unfold firsts; cbn [length]; lia|reflexivity].
  - rewrite nth_overflow by (apply nth_error_None; exact E). reflexivity.
Qed.
Lemma cores_bound n smts d : desc_ok n d -> length smts = n -> (1 <= n <= 1024)%nat -> 1 <= cores_of smts d <= 1024.
Proof.
  intros (_ & _ & _ & _ & _ & _ & _ & HF & ND) HL Hn. unfold cores_of. assert (L : (length (firsts smts (flat_map item_lps (d_shared d))) <= n)%nat); [|lia].
  apply item_lps_range in HF. assert (ND' : NoDup (map Z.to_nat (flat_map item_lps (d_shared d)))).
  { revert HF ND. generalize (flat_map item_lps (d_shared d)). intros l HF ND. induction ND as [|x l HX ND IH]; [constructor|]. inversion HF as [|? ? Hx HF']; subst. cbn [map]. constructor; [|apply IH, HF'].
    intros HI. apply in_map_iff in HI. destruct HI as (y & E & HY). rewrite Forall_forall in HF'. specialize (HF' y HY). cbn in Hx, HF'. apply HX. replace x with y by lia. exact HY. }
  etransitivity; [apply (filter_len)|]. rewrite <- (map_length Z.to_nat). rewrite <- (seq_length n 0). apply NoDup_incl_length; [exact ND'|].
  intros y Hy. apply in_map_iff in Hy. destruct Hy as (z & <- & Hz). rewrite Forall_forall in HF. specialize (HF z Hz). cbn in HF. apply in_seq. lia.
Qed.
Lemma detect_one_ok n smts e d : entry_of n e d -> length smts = n -> (1 <= n <= 1024)%nat -> detect_one smts e = Ok (per_core smts d).
Proof.
  intros (HD & _ & _ & HS & HW & HT & HH) HL Hn. assert (CB := cores_bound n smts d HD HL Hn). destruct HD as (D1 & D2 & D3 & D4 & D5 & D6 & D7 & D8 & D9).
  assert (B1 : 0 <= d_kib d < 10 ^ 9). { destruct HS as (ds & H & _). apply (value_bound _ _ H). }
  assert (B2 : 0 <= d_sets d < 10 ^ 9). { destruct HT as (ds & H & _). apply (value_bound _ _ H). }
  unfold detect_one. rewrite (write_sysfs_ok 32 _ [75] _ (or_intror eq_refl) HS). cbn [bind]. rewrite (write_sysfs_ok 16 _ [] _ (or_introl eq_refl) HW). cbn [bind].
  rewrite (write_sysfs_ok 32 _ [] _ (or_introl eq_refl) HT). cbn [bind].
  unfold wrap. rewrite (Z.mod_small (d_kib d) (2 ^ 32)) by lia. rewrite (Z.mod_small (d_ways d)) by lia. rewrite (Z.mod_small (d_sets d)) by lia.
  rewrite (Z.mod_small (d_ways d * d_sets d)) by nia. rewrite (Z.mod_small (d_kib d * 1024)) by lia. unfold div_by_factor.
  destruct (Z.eqb_spec (d_ways d * d_sets d) 0); [nia|]. cbn [negb guard bind]. rewrite D6. replace (d_ways d * d_sets d * d_line d / (d_ways d * d_sets d)) with (d_line d) by (symmetry; rewrite Z.mul_comm; apply Z.div_mul; lia).
  unfold wrap. rewrite (Z.mod_small (d_line d * _)) by nia. replace (d_line d * (d_ways d * d_sets d) =? d_ways d * d_sets d * d_line d) with true by (symmetry; apply Z.eqb_eq; ring).
  cbn [guard bind]. rewrite (read_string_ok _ _ HH (item_last _ _ D8 D7)). cbn [bind].
  assert (NT : list_text (d_shared d) <> []). { destruct (item_last _ _ D8 D7) as (a & c & -> & _). destruct a; discriminate. }
  assert (EL : expand_list (list_text (d_shared d) ++ [0]) (zl (list_text (d_shared d))) (zl smts - 1) = Ok (flat_map item_lps (d_shared d))).
  { assert (P := expand_list_ok (zl smts - 1) (d_shared d) [] (zl (list_text (d_shared d)))). cbn [app] in P. rewrite app_nil_r in P. apply P; try assumption.
    - unfold zl at 1. rewrite HL. exact D8.
    - left; reflexivity.
    - lia.
    - destruct HH as (nl & _ & _ & LT). rewrite app_length in LT. unfold zl, kNotFound. lia. }
  destruct (list_text (d_shared d)) as [|c0 l0] eqn:ET; [congruence|]. rewrite EL. cbn [bind]. rewrite num_cores_ok. cbn [bind]. unfold per_core.
  assert (EK : (if Z.of_nat (length (firsts smts (flat_map item_lps (d_shared d)))) =? 0 then 1 else Z.of_nat (length (firsts smts (flat_map item_lps (d_shared d))))) = cores_of smts d).
  { unfold cores_of. destruct (Z.eqb_spec (Z.of_nat (length (firsts smts (flat_map item_lps (d_shared d))))) 0); lia. }
  rewrite EK. f_equal. f_equal; apply Z.mod_small; lia.
Qed.
Lemma eqb_list_ok a : forall b, eqb_list a b = true <-> a = b.
Proof.
  induction a as [|x a IH]; intros [|y b]; cbn [eqb_list]; split; try congruence. - intros H. apply andb_prop in H. destruct H as [H1 H2]. apply Z.eqb_eq in H1. apply IH in H2. congruence.
  - intros [= -> ->]. rewrite Z.eqb_refl. apply IH. reflexivity.
Qed.
Definition is_data (d : desc) : bool := match d_kind d with InstructionCache => false | _ => true end.
(** the cache reported for a level: the first data or unified one listed *)
Definition first_of (ds : list desc) (l : nat) : option desc := List.find (fun d => is_data d && (d_level d =? Z.of_nat l)) ds.
Definition cache_at (smts : list Z) (ds : list desc) (l : nat) : Cache := match l with O => no_cache | _ => match first_of ds l with Some d => per_core smts d | None => no_cache end end.
Lemma first_of_snoc seen d l : first_of (seen ++ [d]) l = match first_of seen l with Some x => Some x | None => if is_data d && (d_level d =? Z.of_nat l) then Some d else None end.
Proof. unfold first_of. induction seen as [|a seen IH]; [reflexivity|]. cbn [app List.find]. destruct (is_data a && _); [reflexivity|exact IH]. Qed.
Lemma kind_last k : last_ok (kind_text k).
Proof. destruct k; cbn [kind_text]; [exists [68; 97; 116], 97|exists [73; 110; 115; 116; 114; 117; 99; 116; 105; 111], 110|exists [85; 110; 105; 102; 105; 101], 100]; (split; [reflexivity|lia]). Qed.
Lemma entries_loop_ok n smts : length smts = n -> (1 <= n <= 1024)%nat -> forall es ds seen, Forall2 (entry_of n) es ds ->
  (forall d, In d (seen ++ ds) -> cores_of smts d <= d_kib d /\ desc_ok n d) ->
  entries_loop smts es (map (cache_at smts seen) (seq 0 4)) = Ok (map (cache_at smts (seen ++ ds)) (seq 0 4)).
Proof.
  intros HL Hn es ds seen HF. revert seen. induction HF as [|e d es ds HE HF IH]; intros seen HK.
  - cbn [entries_loop]. rewrite app_nil_r. reflexivity.
  - cbn [entries_loop]. assert (HE' := HE). destruct HE as (HD & HT & HV & _). rewrite (read_string_ok _ _ HT (kind_last _)). cbn [bind].
    replace (seen ++ d :: ds) with ((seen ++ [d]) ++ ds) in * by (rewrite <- app_assoc; reflexivity). specialize (IH (seen ++ [d]) HK).
    assert (KN : kind_text (d_kind d) <> []) by (destruct (d_kind d); discriminate).
    destruct (kind_text (d_kind d)) as [|c0 t0] eqn:EK; [congruence|]. rewrite <- EK.
    assert (ED : negb (eqb_list (kind_text (d_kind d)) kData) && negb (eqb_list (kind_text (d_kind d)) kUnified) = negb (is_data d)) by (unfold is_data; destruct (d_kind d); reflexivity). rewrite ED.
    assert (SKIP : (forall l, (l < 4)%nat -> cache_at smts (seen ++ [d]) l = cache_at smts seen l) -> entries_loop smts es (map (cache_at smts seen) (seq 0 4)) = Ok (map (cache_at smts ((seen ++ [d]) ++ ds)) (seq 0 4))).
    { intros H. rewrite <- IH. f_equal. apply map_ext_in. intros l Hl. apply in_seq in Hl. symmetry. apply H. lia. }
    destruct (is_data d) eqn:EI; cbn [negb].
    2: { apply SKIP. intros l _. unfold cache_at. rewrite first_of_snoc, EI. cbn [andb]. destruct (first_of seen l); reflexivity. }
    rewrite (write_sysfs_ok 32 _ [] _ (or_introl eq_refl) HV). cbn [bind].
    assert (LB : 0 <= d_level d < 10 ^ 9) by (destruct HV as (x & H & _); apply (value_bound _ _ H)).
    replace (wrap 32 (d_level d)) with (d_level d) by (symmetry; apply Z.mod_small; lia).
    destruct ((1 <=? d_level d) && (d_level d <=? 3)) eqn:ER; cbn [negb].
    2: { apply SKIP. intros l Hl. destruct l as [|l]; [reflexivity|]. unfold cache_at. rewrite first_of_snoc, EI. cbn [andb].
         destruct (Z.eqb_spec (d_level d) (Z.of_nat (S l))); [|destruct (first_of seen (S l)); reflexivity]. apply andb_false_iff in ER. destruct ER as [ER|ER]; apply Z.leb_gt in ER; lia. }
    apply andb_prop in ER. destruct ER as [E1 E2]. apply Z.leb_le in E1, E2. set (lv := Z.to_nat (d_level d)). assert (ELV : d_level d = Z.of_nat lv) by lia.
    assert (EN : nth_error (map (cache_at smts seen) (seq 0 4)) lv = Some (cache_at smts seen lv)).
    { rewrite nth_error_map, (nth_error_nth' _ 0%nat) by (rewrite seq_length; lia). rewrite seq_nth by lia. reflexivity. }
    rewrite EN. assert (EC : cache_at smts seen lv = match first_of seen lv with Some d => per_core smts d | None => no_cache end) by (unfold cache_at; destruct lv; [lia|reflexivity]).
    destruct (first_of seen lv) as [d'|] eqn:EF.
    + assert (HI : In d' seen) by (unfold first_of in EF; apply find_some in EF; tauto). destruct (HK d') as [K1 K2]; [apply in_or_app; left; apply in_or_app; left; exact HI|]. assert (CB := cores_bound n smts d' K2 HL Hn).
      assert (P : 0 < d_kib d' / cores_of smts d') by (apply Z.div_str_pos; lia). rewrite EC. cbn [per_core size_kib]. destruct (Z.eqb_spec (d_kib d' / cores_of smts d') 0); [lia|]. cbn [negb].
      apply SKIP. intros l Hl. unfold cache_at. destruct l as [|l]; [reflexivity|]. rewrite first_of_snoc. destruct (first_of seen (S l)) eqn:EF'; [reflexivity|]. rewrite EI. cbn [andb].
      destruct (Z.eqb_spec (d_level d) (Z.of_nat (S l))) as [E|]; [|reflexivity]. assert (lv = S l) by lia. congruence.
    + rewrite EC. cbn [no_cache size_kib Z.eqb negb]. rewrite (detect_one_ok n smts e d HE' HL Hn). cbn [bind]. rewrite <- IH. f_equal.
      assert (EP : per_core smts d = cache_at smts (seen ++ [d]) lv). { unfold cache_at. destruct lv as [|lv'] eqn:EL; [lia|]. rewrite first_of_snoc, EF, EI. cbn [andb]. rewrite ELV, Z.eqb_refl. reflexivity. }
      rewrite EP. apply (upd_nth_map (cache_at smts seen) (cache_at smts (seen ++ [d]))); [lia|]. intros j Hj. unfold cache_at. destruct j as [|j]; [reflexivity|]. rewrite first_of_snoc. destruct (first_of seen (S j)); [reflexivity|].
      rewrite EI. cbn [andb]. destruct (Z.eqb_spec (d_level d) (Z.of_nat (S j))); [lia|reflexivity].
Qed.

(** ** ComputeSets: K KiB, w = line * ways, s sets, c cores *)
Lemma sets_close K w s c : 1 <= K -> 1 <= w -> 1 <= c -> K * 1024 = w * s -> (1024 <= w + Z.gcd w 1024 \/ K mod c = 0) -> 0 <= s / c - (K / c * 1024) / w <= 1.
Proof.
  intros HK Hw Hc E H. set (q := K / c). set (r := K mod c). assert (EK : K = c * q + r) by (apply Z.div_mod; lia). assert (Hr : 0 <= r < c) by (apply Z.mod_pos_bound; lia). assert (Hq : 0 <= q) by (apply Z.div_pos; lia).
  set (x := q * 1024 / w). set (f := (q * 1024) mod w). assert (EX : q * 1024 = w * x + f) by (apply Z.div_mod; lia). assert (Hf : 0 <= f < w) by (apply Z.mod_pos_bound; lia).
  assert (ES : w * s = c * (w * x + f) + r * 1024) by (rewrite <- E, EK, <- EX; ring).
  assert (L : x <= s / c) by (apply Z.div_le_lower_bound; nia).
  assert (U : s / c <= x + 1); [|lia]. apply Z.lt_succ_r. apply Z.div_lt_upper_bound; [lia|].
  (* s < c * (x + 2), i.e. c f + 1024 r < 2 c w *)
  assert (G : c * f + r * 1024 < 2 * (c * w)); [|nia]. destruct H as [H|H].
  - assert (FG : f <= w - Z.gcd w 1024).
    { set (g := Z.gcd w 1024) in *. assert (Hg : 0 < g) by (destruct (Z.eq_dec g 0) as [E0|]; [apply Z.gcd_eq_0_l in E0; lia|assert (0 <= g) by apply Z.gcd_nonneg; lia]).
      destruct (Z.gcd_divide_l w 1024) as [a Ha]. destruct (Z.gcd_divide_r w 1024) as [b Hb]. fold g in Ha, Hb.
      assert (EF : f = g * (q * b - a * x)). { assert (f = q * 1024 - w * x) by lia. rewrite H0. rewrite Ha at 1. rewrite Hb at 1. ring. }
      set (t := q * b - a * x) in *. assert (t < a) by (apply (Z.mul_lt_mono_pos_l g); [lia|]; nia). nia. }
    nia.
  - fold r in H. rewrite H. nia.
Qed.
(** sizes for which the check of ComputeSets passes *)
Definition geometry_ok (smts : list Z) (d : desc) : Prop := 1024 <= d_line d * d_ways d + Z.gcd (d_line d * d_ways d) 1024 \/ d_kib d mod cores_of smts d = 0.
Lemma compute_sets_ok n smts d : desc_ok n d -> length smts = n -> (1 <= n <= 1024)%nat -> cores_of smts d <= d_kib d < 10 ^ 9 -> geometry_ok smts d ->
  compute_sets (per_core smts d) = Ok (per_core smts d).
Proof.
  intros HD HL Hn HK HG. assert (CB := cores_bound n smts d HD HL Hn). destruct HD as (D1 & D2 & D3 & D4 & D5 & D6 & _). unfold compute_sets. cbn [per_core size_kib sets bytes_per_line associativity cores_sharing].
  set (c := cores_of smts d) in *. assert (P : 0 < d_kib d / c) by (apply Z.div_str_pos; lia). assert (PB : d_kib d / c < 10 ^ 9) by (apply Z.div_lt_upper_bound; [lia|]; nia).
  destruct (Z.eqb_spec (d_kib d / c) 0); [lia|]. destruct (Z.eqb_spec (d_line d) 0); [lia|]. destruct (Z.eqb_spec (d_ways d) 0); [lia|]. cbn [orb].
  assert (W : wrap 64 (d_kib d / c * 1024) = d_kib d / c * 1024) by (apply Z.mod_small; lia). rewrite !W, !Z.div_div by lia.
  assert (SC := sets_close (d_kib d) (d_line d * d_ways d) (d_sets d) c ltac:(lia) ltac:(nia) ltac:(lia) ltac:(rewrite D6; ring) HG).
  assert (S0 : 0 <= d_kib d / c * 1024 / (d_line d * d_ways d)) by (apply Z.div_pos; nia).
  destruct (Z.eqb_spec (d_sets d / c) 0) as [E|E].
  - assert (E0 : d_kib d / c * 1024 / (d_line d * d_ways d) = 0) by lia. rewrite E0. unfold wrap. rewrite Z.mod_0_l by lia. unfold per_core. fold c. rewrite E. reflexivity.
  - unfold wrap. rewrite Z.mod_small by lia. destruct (Z.leb_spec (d_sets d / c - d_kib d / c * 1024 / (d_line d * d_ways d)) 1); [|lia]. reflexivity.
Qed.
Lemma compute_none : compute_sets no_cache = Ok no_cache.
Proof. reflexivity. Qed.
Definition slc (c : Cache) : bool := (16 <=? cores_sharing c) && (size_kib c <=? 512).
Lemma data_caches_ok S n sizes ls es ds d1 d2 : detect_packages S n = Ok (Some (sizes, ls)) -> length ls = n -> (1 <= n <= 1024)%nat -> Forall2 (entry_of n) es ds ->
  (forall d, In d ds -> cores_of (map l_smt ls) d <= d_kib d) -> first_of ds 1 = Some d1 -> first_of ds 2 = Some d2 ->
  (forall l d, (1 <= l <= 3)%nat -> first_of ds l = Some d -> geometry_ok (map l_smt ls) d) ->
  data_caches S n es = Ok (Some [no_cache; per_core (map l_smt ls) d1; per_core (map l_smt ls) d2;
    match first_of ds 3 with None => no_cache | Some d3 => if slc (per_core (map l_smt ls) d3) then no_cache else per_core (map l_smt ls) d3 end]).
Proof.
  intros HP HLn Hn HF HC F1 F2 HG. set (smts := map l_smt ls) in *. assert (HL : length smts = n) by (unfold smts; rewrite map_length; exact HLn).
  assert (HD : forall d, In d ds -> desc_ok n d /\ d_kib d < 10 ^ 9).
  { intros d Hd. clear -HF Hd. induction HF as [|e d' es ds HE HF IH]; [destruct Hd|]. destruct Hd as [->|Hd]; [|apply IH, Hd]. destruct HE as (H & _ & _ & (t & H1 & _) & _). split; [exact H|apply (value_bound _ _ H1)]. }
  assert (HI : forall l d, first_of ds l = Some d -> In d ds) by (intros l d H; unfold first_of in H; apply find_some in H; tauto).
  unfold data_caches, init_caches. rewrite HP. cbn [bind]. fold smts.
  change (repeat no_cache 4) with (map (cache_at smts []) (seq 0 4)). rewrite (entries_loop_ok n smts HL Hn es ds [] HF).
  2: { intros d Hd. cbn [app] in Hd. split; [apply HC, Hd|apply HD, Hd]. }
  cbn [bind app seq map]. unfold cache_at. rewrite F1, F2.
  assert (POS : forall d, In d ds -> (size_kib (per_core smts d) =? 0) = false).
  { intros d Hd. cbn [per_core size_kib]. assert (CB := cores_bound n smts d (proj1 (HD d Hd)) HL Hn). assert (0 < d_kib d / cores_of smts d) by (apply Z.div_str_pos; specialize (HC d Hd); lia). apply Z.eqb_neq. lia. }
  rewrite (POS d1 (HI _ _ F1)), (POS d2 (HI _ _ F2)). cbn [orb bind].
  assert (CS : forall l d, (1 <= l <= 3)%nat -> first_of ds l = Some d -> compute_sets (per_core smts d) = Ok (per_core smts d)).
  { intros l d L H. destruct (HD d (HI _ _ H)) as [H1 H2]. apply (compute_sets_ok n); [exact H1|exact HL|exact Hn|split; [apply HC, (HI _ _ H)|exact H2]|apply (HG l d L), H]. }
  rewrite (CS 1%nat d1 ltac:(lia) F1), (CS 2%nat d2 ltac:(lia) F2). cbn [bind]. destruct (first_of ds 3) as [d3|] eqn:F3; [rewrite (CS 3%nat d3 ltac:(lia) F3)|rewrite compute_none]; cbn [bind]; reflexivity.
Qed.
Lemma data_caches_missing S n sizes ls es ds : detect_packages S n = Ok (Some (sizes, ls)) -> length ls = n -> (1 <= n <= 1024)%nat -> Forall2 (entry_of n) es ds ->
  (forall d, In d ds -> cores_of (map l_smt ls) d <= d_kib d) -> first_of ds 1 = None \/ first_of ds 2 = None -> data_caches S n es = Ok None.
Proof.
  intros HP HLn Hn HF HC HN. set (smts := map l_smt ls) in *. assert (HL : length smts = n) by (unfold smts; rewrite map_length; exact HLn).
  assert (HD : forall d, In d ds -> desc_ok n d).
  { intros d Hd. clear -HF Hd. induction HF as [|e d' es ds HE HF IH]; [destruct Hd|]. destruct Hd as [->|Hd]; [|apply IH, Hd]. apply HE. }
  unfold data_caches, init_caches. rewrite HP. cbn [bind]. fold smts.
  change (repeat no_cache 4) with (map (cache_at smts []) (seq 0 4)). rewrite (entries_loop_ok n smts HL Hn es ds [] HF).
  2: { intros d Hd. cbn [app] in Hd. split; [apply HC, Hd|apply HD, Hd]. }
  cbn [bind app seq map]. unfold cache_at. destruct HN as [-> | ->]; [reflexivity|]. rewrite orb_true_r. reflexivity.
Qed.
Lemma data_caches_no_packages S n es : detect_packages S n = Ok None -> data_caches S n es = Ok None.
Proof. intros H. unfold data_caches, init_caches. rewrite H. reflexivity. Qed.
