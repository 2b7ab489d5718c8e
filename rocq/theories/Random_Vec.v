(** Seeding and the vector generators. *)
From Coq Require Import ZArith NArith Znumtheory List Lia Bool.
From Verif Require Import Word Word_Proofs Vec_Model Vec_Proofs Random_Model Random_Spec GF2_Poly Random_Linear Primes Random_Cert Random_Proofs.
Import ListNotations.
Local Open Scope Z_scope.

(** ** Seeding *)
Lemma xorshift_inj k a b : 0 < k -> u64 a -> u64 b -> Z.lxor a (Z.shiftr a k) = Z.lxor b (Z.shiftr b k) -> a = b.
Proof.
  intros Hk Ha Hb E.
  assert (X : Z.lxor a b = Z.shiftr (Z.lxor a b) k).
  { rewrite Z.shiftr_lxor. apply Z.lxor_eq. rewrite (Z.lxor_assoc a b).
    replace (Z.lxor b (Z.lxor (Z.shiftr a k) (Z.shiftr b k))) with (Z.lxor (Z.shiftr a k) (Z.lxor b (Z.shiftr b k))) by xor_ac.
    rewrite <- Z.lxor_assoc, E, Z.lxor_nilpotent. reflexivity. }
  pose proof (u64_lxor a b Ha Hb) as [D _]. apply Z.lxor_eq.
  rewrite Z.shiftr_div_pow2 in X by lia.
  assert (2 <= 2 ^ k) by (replace 2 with (2 ^ 1) at 1 by reflexivity; apply Z.pow_le_mono_r; lia).
  destruct (Z.eq_dec (Z.lxor a b) 0) as [|Nz]; [assumption|exfalso].
  pose proof (Z.div_lt (Z.lxor a b) (2 ^ k) ltac:(lia) ltac:(lia)). lia.
Qed.
Lemma mul_odd_inj c ci a b : (c * ci) mod 2 ^ 64 = 1 -> u64 a -> u64 b -> wrap 64 (a * c) = wrap 64 (b * c) -> a = b.
Proof.
  unfold wrap, u64. intros I Ha Hb E.
  assert (K : forall x, 0 <= x < 2 ^ 64 -> x = ((x * c) mod 2 ^ 64 * ci) mod 2 ^ 64).
  { intros x Hx. rewrite Z.mul_mod_idemp_l by lia. rewrite <- Z.mul_assoc. rewrite <- Z.mul_mod_idemp_r by lia.
    rewrite I, Z.mul_1_r. symmetry. apply Z.mod_small. lia. }
  rewrite (K a Ha), (K b Hb), E. reflexivity.
Qed.
Definition mix (z : Z) : Z :=
  let z := wrap 64 (Z.lxor z (Z.shiftr z 30) * 0xbf58476d1ce4e5b9) in
  let z := wrap 64 (Z.lxor z (Z.shiftr z 27) * 0x94d049bb133111eb) in
  Z.lxor z (Z.shiftr z 31).
Lemma mix_inj a b : u64 a -> u64 b -> mix a = mix b -> a = b.
Proof.
  intros Ha Hb E. unfold mix in E. cbv zeta in E.
  assert (X : forall z k, 0 <= k -> u64 z -> u64 (Z.lxor z (Z.shiftr z k))) by auto using u64_lxor, u64_shiftr.
  apply xorshift_inj in E; auto using u64_wrap; [|lia].
  apply (mul_odd_inj _ 0x319642b2d24d8ec3) in E; [|vm_compute; reflexivity|apply X; [lia|apply u64_wrap]|apply X; [lia|apply u64_wrap]].
  apply xorshift_inj in E; auto using u64_wrap; [|lia].
  apply (mul_odd_inj _ 0x96de1b173f119089) in E; [|vm_compute; reflexivity|apply X; [lia|assumption]|apply X; [lia|assumption]].
  apply xorshift_inj in E; auto. lia.
Qed.
Lemma u64_mix z : u64 z -> u64 (mix z).
Proof. intros H. unfold mix. cbv zeta. apply u64_lxor; [apply u64_wrap|]. apply u64_shiftr; [lia|apply u64_wrap]. Qed.
Definition gamma : Z := 0x9e3779b97f4a7c15.
Lemma split_mix_eq s : split_mix s = (wrap 64 (s + gamma), mix (wrap 64 (s + gamma))).
Proof. unfold split_mix, mix, gamma. cbv zeta. reflexivity. Qed.
Lemma seed_eq seed : xoshiro_seed seed =
  (mix (wrap 64 (seed + gamma)), mix (wrap 64 (wrap 64 (seed + gamma) + gamma)),
   mix (wrap 64 (wrap 64 (wrap 64 (seed + gamma) + gamma) + gamma)),
   mix (wrap 64 (wrap 64 (wrap 64 (wrap 64 (seed + gamma) + gamma) + gamma) + gamma))).
Proof. unfold xoshiro_seed. rewrite !split_mix_eq. reflexivity. Qed.
Lemma seed_wf seed : wf (xoshiro_seed seed).
Proof. rewrite seed_eq. repeat split; apply u64_mix, u64_wrap. Qed.
Lemma seed_nonzero seed : xoshiro_seed seed <> zero_st.
Proof.
  rewrite seed_eq. intros E. injection E as E0 E1 _ _.
  rewrite <- E1 in E0. apply mix_inj in E0; auto using u64_wrap.
  set (x := wrap 64 (seed + gamma)) in *. assert (Hx : u64 x) by apply u64_wrap. clearbody x. unfold wrap, gamma, u64 in *.
  assert (D : (x + 0x9e3779b97f4a7c15 - x) mod 2 ^ 64 = 0).
  { rewrite Zminus_mod, <- E0, (Z.mod_small x) by exact Hx. now rewrite Z.sub_diag. }
  replace (x + 0x9e3779b97f4a7c15 - x) with 0x9e3779b97f4a7c15 in D by lia. vm_compute in D. discriminate.
Qed.
Lemma seed_inj a b : u64 a -> u64 b -> xoshiro_seed a = xoshiro_seed b -> a = b.
Proof.
  intros Ha Hb E. rewrite !seed_eq in E. injection E as E _ _ _. apply mix_inj in E; auto using u64_wrap.
  unfold wrap, u64 in *. rewrite <- (Z.mod_small a (2 ^ 64)), <- (Z.mod_small b (2 ^ 64)) by assumption.
  replace a with (a + gamma - gamma) by lia. replace b with (b + gamma - gamma) by lia.
  rewrite Zminus_mod, E, <- Zminus_mod. reflexivity.
Qed.

(** ** Repeated jumps *)
Lemma repeat_jump arr d n s : (forall s, wf s -> jump arr s = after d s) -> 0 <= n -> wf s ->
  repeat_call n (jump arr) s = after (Z.to_N n * d) s.
Proof.
  intros Hj Hn Hs. unfold repeat_call. generalize (Z.to_N n). clear n Hn. intros n.
  induction n using N.peano_ind; [reflexivity|].
  rewrite N.iter_succ, IHn, Hj by now apply wf_after. rewrite <- after_add. f_equal. lia.
Qed.

(** ** Columns *)
Definition rows_of (cols : list st) : vgen :=
  {| row0 := map (fun c => fst (fst (fst c))) cols; row1 := map (fun c => snd (fst (fst c))) cols;
     row2 := map (fun c => snd (fst c)) cols; row3 := map snd cols |}.
Lemma vmap2_map {A} f (a b : A -> Z) cols : vmap2 f (map a cols) (map b cols) = map (fun c => f (a c) (b c)) cols.
Proof. unfold vmap2. induction cols; cbn; [reflexivity|]. now rewrite IHcols. Qed.
Lemma update_cols cols : update (rows_of cols) = (map (fun c => fst (next c)) cols, rows_of (map (fun c => snd (next c)) cols)).
Proof.
  unfold update, rows_of, vadd, vxor, vrotr, vshl. cbn [row0 row1 row2 row3].
  repeat (rewrite ?map_map; rewrite vmap2_map || rewrite map_map).
  f_equal.
  - apply map_ext. intros c. d4 c. cbn [next fst snd]. unfold rotl. change (64 - 41) with 23. change (64 - 23) with 41.
    rewrite Z.lor_comm. reflexivity.
  - f_equal; apply map_ext; intros c; d4 c; cbn [next fst snd]; try reflexivity.
    unfold rotl. change (64 - 19) with 45. change (64 - 45) with 19. apply Z.lor_comm.
Qed.
Lemma vafter_cols k : forall cols, vafter k (rows_of cols) = rows_of (map (after k) cols).
Proof.
  unfold vafter, after. induction k using N.peano_ind; intros cols.
  - cbn [N.iter]. now rewrite map_id.
  - rewrite N.iter_succ, IHk, update_cols. cbn [snd]. rewrite map_map. f_equal. apply map_ext. intros c. now rewrite N.iter_succ.
Qed.
Lemma vcall_cols k cols : vcall k (rows_of cols) = map (output k) cols.
Proof. unfold vcall. rewrite vafter_cols, update_cols. cbn [fst]. rewrite map_map. reflexivity. Qed.
Lemma nth_map_lt {A B} (f : A -> B) l d d' i : (i < length l)%nat -> nth i (map f l) d = f (nth i l d').
Proof. intros H. rewrite (nth_indep _ d (f d')) by now rewrite map_length. apply map_nth. Qed.
Lemma column_rows cols i : (i < length cols)%nat -> column (rows_of cols) i = nth i cols zero_st.
Proof.
  intros H. unfold column, rows_of. cbn [row0 row1 row2 row3]. rewrite !(nth_map_lt _ _ _ zero_st) by exact H.
  generalize (nth i cols zero_st). intros c. d4 c. reflexivity.
Qed.

Lemma fill_cols_gen d n : (forall s, wf s -> jump kJump s = after d s) ->
  forall s, wf s -> fill_columns n s = rows_of (map (fun i => after (d * N.of_nat i) s) (seq 0 n)).
Proof.
  intros Hj. induction n as [|n IH]; intros s Hs; [reflexivity|].
  assert (E : map (fun i => after (d * N.of_nat i) s) (seq 0 (S n))
              = s :: map (fun i => after (d * N.of_nat i) (after d s)) (seq 0 n)).
  { cbn [seq map]. f_equal; [now rewrite N.mul_0_r|]. rewrite <- seq_shift, map_map. apply map_ext. intros i.
    rewrite <- after_add. f_equal. rewrite Nnat.Nat2N.inj_succ, N.mul_succ_r. reflexivity. }
  rewrite E. cbn [fill_columns]. rewrite Hj by exact Hs. rewrite IH by now apply wf_after. d4 s. reflexivity.
Qed.
Lemma fill_cols n s : wf s -> fill_columns n s = rows_of (map (fun i => after (2 ^ 128 * N.of_nat i) s) (seq 0 n)).
Proof. apply fill_cols_gen. exact jump_ok. Qed.
Definition cols_of (lanes seed thread : Z) : list st :=
  map (fun i => after (Z.to_N (2 ^ 192 * thread + 2 ^ 128 * Z.of_nat i)) (xoshiro_seed seed)) (seq 0 (Z.to_nat lanes)).
Lemma vector_cols lanes seed thread : 0 <= thread -> vector_xoshiro lanes seed thread = rows_of (cols_of lanes seed thread).
Proof.
  intros Ht. unfold vector_xoshiro.
  rewrite (repeat_jump kLongJump (2 ^ 192)) by auto using long_jump_ok, seed_wf.
  rewrite fill_cols by (apply wf_after, seed_wf). unfold cols_of. f_equal. apply map_ext. intros i.
  rewrite <- after_add. f_equal. rewrite Z2N.inj_add, !Z2N.inj_mul by lia.
  rewrite N.add_comm. f_equal; [apply N.mul_comm|]. now rewrite <- nat_N_Z, N2Z.id.
Qed.
Lemma vcall_ok lanes seed thread k : 0 <= thread -> vcall k (vector_xoshiro lanes seed thread) = lane_results lanes seed thread k.
Proof.
  intros Ht. rewrite vector_cols by exact Ht. rewrite vcall_cols. unfold cols_of, lane_results. rewrite map_map.
  apply map_ext. intros i. unfold stream, output. rewrite <- after_add. do 3 f_equal. lia.
Qed.

(** ** Arrays of results *)
Lemma zlen_map {A B} (f : A -> B) l : zlen (map f l) = zlen l.
Proof. unfold zlen. now rewrite map_length. Qed.
Lemma vafter_succ k g : vafter (N.succ k) g = vafter k (snd (update g)).
Proof. unfold vafter. now rewrite N.iter_succ_r. Qed.
Lemma vafter_add a b g : vafter (a + b) g = vafter a (vafter b g).
Proof. apply N.iter_add. Qed.
Lemma vcall_len k cols : zlen (vcall k (rows_of cols)) = Z.of_nat (length cols).
Proof. rewrite vcall_cols. unfold zlen. now rewrite map_length. Qed.

Section Gen.
Context {B : Type} (lanes : Z) (post : Z -> B).
Hypothesis lanes_pos : 0 < lanes.

Lemma gen_loop_ok n : forall m fuel done rest cols, (m < fuel)%nat -> Z.of_nat (length cols) = lanes ->
  zlen rest = Z.of_nat m * lanes -> n = zlen done + zlen rest ->
  gen_loop fuel lanes n (zlen done) post (rows_of cols) (done ++ rest)
  = Some (done ++ flat_map (fun k => map post (vcall (N.of_nat k) (rows_of cols))) (seq 0 m), vafter (N.of_nat m) (rows_of cols)).
Proof.
  induction m as [|m IH]; intros fuel done rest cols Hf Hc Hr Hn; (destruct fuel as [|fuel]; [lia|]); cbn [gen_loop].
  - assert (rest = []) by (destruct rest; [reflexivity|unfold zlen in Hr; cbn in Hr; lia]). subst rest.
    replace (zlen done <? n) with false; [cbn; now rewrite app_nil_r|]. symmetry. apply Z.ltb_ge. unfold zlen in *. cbn in *. lia.
  - replace (zlen done <? n) with true by (symmetry; apply Z.ltb_lt; nia).
    rewrite update_cols. rewrite storeu_app by (rewrite zlen_map, zlen_map; unfold zlen in *; nia).
    set (v := map post (map (fun c => fst (next c)) cols)).
    assert (Lv : zlen v = lanes) by (unfold v; rewrite !zlen_map; exact Hc).
    rewrite app_assoc. replace (zlen done + lanes) with (zlen (done ++ v)) by (rewrite zlen_app; lia).
    rewrite IH; [| lia | now rewrite map_length | |].
    + rewrite <- app_assoc. f_equal. f_equal.
      * f_equal. cbn [seq flat_map]. f_equal.
        -- change (N.of_nat 0) with 0%N. rewrite vcall_cols. reflexivity.
        -- rewrite <- seq_shift, flat_map_concat_map, flat_map_concat_map, map_map. f_equal. apply map_ext. intros k.
           f_equal. rewrite Nnat.Nat2N.inj_succ. unfold vcall. rewrite vafter_succ, update_cols. reflexivity.
      * rewrite Nnat.Nat2N.inj_succ, vafter_succ, update_cols. reflexivity.
    + replace (length v) with (Z.to_nat lanes) by (unfold zlen in Lv; lia). rewrite zlen_skipn by nia. nia.
    + rewrite zlen_app. replace (length v) with (Z.to_nat lanes) by (unfold zlen in Lv; lia). rewrite zlen_skipn by nia. lia.
Qed.
Lemma gen_loop_oob n : n mod lanes <> 0 -> forall fuel i cols result, 0 <= i <= n -> i mod lanes = 0 -> zlen result = n ->
  Z.of_nat (length cols) = lanes -> gen_loop fuel lanes n i post (rows_of cols) result = None.
Proof.
  intros Hn. induction fuel as [|fuel IH]; intros i cols result Hi Hm Hr Hc; [reflexivity|]. cbn [gen_loop].
  destruct (Z.ltb_spec i n) as [L|L].
  - rewrite update_cols. destruct (storeu _ _ _) as [r'|] eqn:E; [|reflexivity].
    unfold storeu in E. rewrite !zlen_map in E. fold (zlen cols) in Hc. 
    destruct ((0 <=? i) && (i + zlen cols <=? zlen result)) eqn:C; [|discriminate]. apply andb_true_iff in C. destruct C as [C1 C2].
    apply Z.leb_le in C2. injection E as <-. unfold zlen in Hc at 1.
    apply IH.
    + unfold zlen in *. lia.
    + rewrite <- Z.add_mod_idemp_r, Z.mod_same, Z.add_0_r by lia. exact Hm.
    + unfold zlen in *. rewrite !app_length, firstn_length, skipn_length, !map_length. lia.
    + now rewrite map_length.
  - exfalso. apply Hn. replace n with i by lia. exact Hm.
Qed.
Lemma generate_ok zero n cols : 0 <= n -> n mod lanes = 0 -> Z.of_nat (length cols) = lanes ->
  generate zero lanes n post (rows_of cols)
  = Some (flat_map (fun k => map post (vcall (N.of_nat k) (rows_of cols))) (seq 0 (Z.to_nat (n / lanes))), vafter (Z.to_N (n / lanes)) (rows_of cols)).
Proof.
  intros Hn Hm Hc. unfold generate.
  pose proof (Z.div_mod n lanes ltac:(lia)) as E. assert (0 <= n / lanes) by (apply Z.div_pos; lia).
  pose proof (gen_loop_ok n (Z.to_nat (n / lanes)) (S (Z.to_nat n)) [] (repeat zero (Z.to_nat n)) cols) as G.
  cbn [app] in G. change (zlen (@nil B)) with 0 in G. rewrite G.
  - rewrite Z_nat_N. reflexivity.
  - assert (n / lanes <= n) by (apply Z.div_le_upper_bound; nia). lia.
  - exact Hc.
  - unfold zlen. rewrite repeat_length. nia.
  - unfold zlen. rewrite repeat_length. lia.
Qed.
End Gen.
Lemma generate_oob {B} (zero : B) lanes post n cols : 0 < lanes -> 0 <= n -> n mod lanes <> 0 -> Z.of_nat (length cols) = lanes ->
  generate zero lanes n post (rows_of cols) = None.
Proof.
  intros. unfold generate. apply gen_loop_oob; auto; [lia|]. unfold zlen. rewrite repeat_length. lia.
Qed.
Lemma cols_len lanes seed thread : 0 <= lanes -> Z.of_nat (length (cols_of lanes seed thread)) = lanes.
Proof. intros. unfold cols_of. rewrite map_length, seq_length. lia. Qed.

(** ** CachedXoshiro *)
Lemma nth_error_flat_map {A} (f : nat -> list A) L : (0 < L)%nat -> (forall k, length (f k) = L) ->
  forall q a i, (i < q * L)%nat -> nth_error (flat_map f (seq a q)) i = nth_error (f (a + i / L)%nat) (i mod L).
Proof.
  intros HL Hf. induction q as [|q IH]; intros a i Hi; [lia|]. cbn [seq flat_map].
  destruct (Nat.lt_ge_cases i L) as [H|H].
  - rewrite nth_error_app1 by now rewrite Hf. rewrite Nat.div_small, Nat.mod_small, Nat.add_0_r by exact H. reflexivity.
  - rewrite nth_error_app2 by now rewrite Hf. rewrite Hf, IH by lia.
    replace i with ((i - L) + 1 * L)%nat at 3 4 by lia.
    rewrite Nat.div_add, Nat.mod_add by lia. f_equal. f_equal. lia.
Qed.

Section Cached.
Variables lanes size seed thread : Z.
Hypothesis lanes_pos : 0 < lanes.
Hypothesis size_pos : 0 < size.
Hypothesis size_mult : size mod lanes = 0.
Hypothesis thread_nonneg : 0 <= thread.
Let q : Z := size / lanes.
Let g0 := vector_xoshiro lanes seed thread.

Lemma q_pos : 0 < q /\ size = q * lanes.
Proof.
  pose proof (Z.div_mod size lanes ltac:(lia)) as E. fold q in E. split; nia.
Qed.
Lemma g0_after k : vafter k g0 = rows_of (map (after k) (cols_of lanes seed thread)).
Proof. unfold g0. rewrite vector_cols by exact thread_nonneg. apply vafter_cols. Qed.
Lemma vcall_after k k0 : vcall k (vafter k0 g0) = lane_results lanes seed thread (k + k0).
Proof. unfold vcall. rewrite <- vafter_add. apply (vcall_ok lanes seed thread (k + k0) thread_nonneg). Qed.
Lemma generate_after {B} (zero : B) post n k0 : 0 <= n -> n mod lanes = 0 ->
  generate zero lanes n post (vafter k0 g0)
  = Some (flat_map (fun k => map post (lane_results lanes seed thread (k0 + N.of_nat k))) (seq 0 (Z.to_nat (n / lanes))),
          vafter (Z.to_N (n / lanes) + k0) g0).
Proof.
  intros Hn Hm. rewrite vafter_add. rewrite (g0_after k0).
  rewrite generate_ok; auto; [|rewrite map_length; now apply cols_len, Z.lt_le_incl].
  f_equal. f_equal. rewrite !flat_map_concat_map. f_equal. apply map_ext. intros k. f_equal.
  rewrite <- g0_after, vcall_after. f_equal. apply N.add_comm.
Qed.
Lemma generate_after_oob {B} (zero : B) post n k0 : 0 <= n -> n mod lanes <> 0 -> generate zero lanes n post (vafter k0 g0) = None.
Proof.
  intros Hn Hm. rewrite (g0_after k0). apply generate_oob; auto. rewrite map_length. now apply cols_len, Z.lt_le_incl.
Qed.

Definition cinv (j : Z) (c : cached) : Prop := exists b, 0 <= b /\
  generator_ c = vafter (Z.to_N ((b + 1) * q)) g0 /\
  cache_ c = flat_map (fun k => lane_results lanes seed thread (Z.to_N (b * q) + N.of_nat k)) (seq 0 (Z.to_nat q)) /\
  0 <= index_ c <= size /\ j = b * size + index_ c.

Lemma map_id_flat (l : list nat) (f : nat -> list Z) : flat_map (fun k => map (fun x => x) (f k)) l = flat_map f l.
Proof. rewrite !flat_map_concat_map. f_equal. apply map_ext. intros. apply map_id. Qed.
Lemma cinv_new : exists c, cached_new lanes size seed thread = Some c /\ cinv 0 c.
Proof.
  destruct q_pos as [Q1 Q2].
  unfold cached_new. fold g0. change g0 with (vafter 0 g0). rewrite generate_after by (auto; lia).
  eexists. split; [reflexivity|]. exists 0. cbn [generator_ cache_ index_]. rewrite map_id_flat. fold q.
  rewrite N.add_0_r, Z.add_0_l, Z.mul_1_l. repeat split; try lia.
Qed.
Lemma lane_results_len k : length (lane_results lanes seed thread k) = Z.to_nat lanes.
Proof. unfold lane_results. now rewrite map_length, seq_length. Qed.
Lemma cached_read b i : 0 <= b -> 0 <= i < size ->
  rd (flat_map (fun k => lane_results lanes seed thread (Z.to_N (b * q) + N.of_nat k)) (seq 0 (Z.to_nat q))) i
  = Some (stream seed thread ((b * size + i) mod lanes) (Z.to_N ((b * size + i) / lanes))).
Proof.
  intros Hb Hi. destruct q_pos as [Q1 Q2]. unfold rd. destruct (Z.ltb_spec i 0); [lia|].
  rewrite (nth_error_flat_map _ (Z.to_nat lanes)); [|lia|intros; apply lane_results_len|rewrite <- Z2Nat.inj_mul by lia; lia].
  pose proof (Z.mod_pos_bound i lanes ltac:(lia)). assert (0 <= i / lanes) by (apply Z.div_pos; lia).
  rewrite <- Z2Nat.inj_mod, <- Z2Nat.inj_div by lia. rewrite Nat.add_0_l.
  unfold lane_results. rewrite (nth_error_map).
  assert (E : nth_error (seq 0 (Z.to_nat lanes)) (Z.to_nat (i mod lanes)) = Some (Z.to_nat (i mod lanes))).
  { rewrite (nth_error_nth' _ 0%nat) by (rewrite seq_length; lia). rewrite seq_nth by lia. reflexivity. }
  rewrite E. cbn [option_map]. f_equal.
  assert (E1 : (b * size + i) mod lanes = i mod lanes).
  { rewrite Q2. replace (b * (q * lanes) + i) with (i + (b * q) * lanes) by ring. apply Z.mod_add. lia. }
  assert (E2 : (b * size + i) / lanes = b * q + i / lanes).
  { rewrite Q2. replace (b * (q * lanes) + i) with ((b * q) * lanes + i) by ring. rewrite Z.div_add_l by lia. reflexivity. }
  rewrite E1, E2, Z2Nat.id by lia. f_equal. rewrite Z_nat_N, <- Z2N.inj_add by nia. reflexivity.
Qed.
Lemma cinv_next j c : cinv j c -> exists c', cached_next lanes size c = Some (stream seed thread (j mod lanes) (Z.to_N (j / lanes)), c') /\ cinv (j + 1) c'.
Proof.
  intros (b & Hb & Hg & Hc & Hi & Hj). destruct q_pos as [Q1 Q2]. unfold cached_next.
  destruct (Z.eqb_spec (index_ c) size) as [E|E].
  - rewrite Hg, generate_after by (auto; lia). rewrite map_id_flat. cbn [cache_ index_ generator_]. fold q.
    rewrite (cached_read (b + 1) 0) by lia. replace ((b + 1) * size + 0) with j by lia.
    eexists. split; [reflexivity|]. exists (b + 1). cbn [cache_ index_ generator_]. repeat split; try lia.
    f_equal. rewrite <- Z2N.inj_add by nia. f_equal. lia.
  - rewrite Hc, cached_read by lia. rewrite <- Hj. eexists. split; [reflexivity|]. exists b. cbn [cache_ index_ generator_].
    repeat split; auto; lia.
Qed.
Lemma cached_ok calls : exists c0, cached_new lanes size seed thread = Some c0 /\ exists c',
  cached_calls lanes size calls c0 = Some (map (fun j => stream seed thread (Z.of_nat j mod lanes) (Z.to_N (Z.of_nat j / lanes))) (seq 0 calls), c') .
Proof.
  destruct cinv_new as (c0 & E & I). exists c0. split; [exact E|].
  assert (K : exists c', cached_calls lanes size calls c0 = Some (map (fun j => stream seed thread (Z.of_nat j mod lanes) (Z.to_N (Z.of_nat j / lanes))) (seq 0 calls), c') /\ cinv (Z.of_nat calls) c').
  { induction calls as [|k IH]; [exists c0; split; [reflexivity|exact I]|].
    destruct IH as (c' & E' & I'). destruct (cinv_next _ _ I') as (c'' & E'' & I'').
    exists c''. cbn [cached_calls]. rewrite E', E''. rewrite seq_S, map_app. split; [reflexivity|].
    replace (Z.of_nat (S k)) with (Z.of_nat k + 1) by lia. exact I''. }
  destruct K as (c' & K & _). exists c'. exact K.
Qed.
End Cached.
Lemma cached_oob lanes size seed thread : 0 < lanes -> 0 <= size -> 0 <= thread -> size mod lanes <> 0 -> cached_new lanes size seed thread = None.
Proof.
  intros. unfold cached_new. rewrite (generate_after_oob lanes seed thread H H1 0 (fun x => x) size 0 H0 H2 : generate 0 lanes size (fun x => x) (vector_xoshiro lanes seed thread) = None). reflexivity.
Qed.

(** ** Disjoint streams *)
Lemma column_after lanes seed thread k i : 0 <= thread -> (i < Z.to_nat lanes)%nat ->
  column (vafter k (vector_xoshiro lanes seed thread)) i
  = after (Z.to_N (2 ^ 192 * thread + 2 ^ 128 * Z.of_nat i) + k) (xoshiro_seed seed).
Proof.
  intros Ht Hi. rewrite vector_cols, vafter_cols by exact Ht.
  assert (L : length (cols_of lanes seed thread) = Z.to_nat lanes) by (unfold cols_of; now rewrite map_length, seq_length).
  rewrite column_rows by (rewrite map_length, L; exact Hi).
  rewrite (nth_map_lt _ _ _ zero_st) by (rewrite L; exact Hi). unfold cols_of.
  rewrite (nth_map_lt _ _ _ 0%nat) by (rewrite seq_length; exact Hi). rewrite seq_nth by exact Hi.
  rewrite Nat.add_0_l, N.add_comm, after_add. reflexivity.
Qed.
Lemma position_inj t i a t' i' a' : 0 <= i < 2 ^ 64 -> 0 <= i' < 2 ^ 64 -> 0 <= a < 2 ^ 128 -> 0 <= a' < 2 ^ 128 -> 0 <= t -> 0 <= t' ->
  2 ^ 192 * t + 2 ^ 128 * i + a = 2 ^ 192 * t' + 2 ^ 128 * i' + a' -> t = t' /\ i = i' /\ a = a'.
Proof.
  change (2 ^ 192) with (2 ^ 64 * 2 ^ 128). set (X := 2 ^ 64). set (Y := 2 ^ 128). assert (0 < X) by reflexivity. assert (0 < Y) by reflexivity.
  clearbody X Y. intros Hi Hi' Ha Ha' Ht Ht' E.
  assert (D : X * t + i = X * t' + i' /\ a = a').
  { apply (Z.div_mod_unique Y); [lia|lia|]. nia. }
  destruct D as [D ->]. destruct (Z.div_mod_unique X t t' i i' ltac:(lia) ltac:(lia) D). auto.
Qed.
Lemma seed_position seed a b : 0 <= a < 2 ^ 256 - 1 -> 0 <= b < 2 ^ 256 - 1 ->
  after (Z.to_N a) (xoshiro_seed seed) = after (Z.to_N b) (xoshiro_seed seed) -> a = b.
Proof.
  intros Ha Hb E. rewrite !after_Tl in E by apply seed_wf.
  apply same_position in E; [|apply seed_wf|apply seed_nonzero| |].
  - apply Z2N.inj in E; lia.
  - change MN with (Z.to_N (2 ^ 256 - 1)). apply Z2N.inj_lt; lia.
  - change MN with (Z.to_N (2 ^ 256 - 1)). apply Z2N.inj_lt; lia.
Qed.
Lemma streams_disjoint lanes seed t t' i i' a a' : lanes <= 2 ^ 63 -> 0 <= t < 2 ^ 64 -> 0 <= t' < 2 ^ 64 ->
  (i < Z.to_nat lanes)%nat -> (i' < Z.to_nat lanes)%nat -> (a < 2 ^ 128)%N -> (a' < 2 ^ 128)%N ->
  column (vafter a (vector_xoshiro lanes seed t)) i = column (vafter a' (vector_xoshiro lanes seed t')) i' ->
  t = t' /\ i = i' /\ a = a'.
Proof.
  intros Hl Ht Ht' Hi Hi' Ha Ha' E. rewrite !column_after in E by lia.
  assert (F : forall t i a, 0 <= t < 2 ^ 64 -> (i < Z.to_nat lanes)%nat -> (a < 2 ^ 128)%N ->
    (Z.to_N (2 ^ 192 * t + 2 ^ 128 * Z.of_nat i) + a)%N = Z.to_N (2 ^ 192 * t + 2 ^ 128 * Z.of_nat i + Z.of_N a)
    /\ 0 <= 2 ^ 192 * t + 2 ^ 128 * Z.of_nat i + Z.of_N a < 2 ^ 256 - 1).
  { clear - Hl. intros t i a Ht Hi Ha. split; [rewrite (Z2N.inj_add (2 ^ 192 * t + 2 ^ 128 * Z.of_nat i) (Z.of_N a)), N2Z.id by lia; reflexivity|].
    assert (Z.of_N a < 2 ^ 128) by (change (2 ^ 128) with (Z.of_N (2 ^ 128)); lia). split; [lia|].
    change (2 ^ 256) with (2 ^ 192 * 2 ^ 64). change (2 ^ 192) with (2 ^ 128 * 2 ^ 64) in *. lia. }
  destruct (F t i a Ht Hi Ha) as [E1 B1]. destruct (F t' i' a' Ht' Hi' Ha') as [E2 B2].
  rewrite E1, E2 in E. apply seed_position in E; [|exact B1|exact B2].
  assert (Z.of_N a < 2 ^ 128) by (change (2 ^ 128) with (Z.of_N (2 ^ 128)); lia).
  assert (Z.of_N a' < 2 ^ 128) by (change (2 ^ 128) with (Z.of_N (2 ^ 128)); lia).
  apply position_inj in E; lia.
Qed.
