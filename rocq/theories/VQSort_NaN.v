(** Replacement of NaN before sorting and Fill afterwards. *)
From Coq Require Import ZArith List Lia Bool Permutation.
From Verif Require Import Word Word_Proofs Vec_Model Vec_Proofs Sort_Spec Recurse_Model Recurse_Spec Recurse_Proofs Traits_Model Traits_Proofs VQSort_Model VQSort_Spec VQSort_Proofs.
Import ListNotations.
Local Open Scope Z_scope.

Section Replace.
Context {F : Type} (nan : F -> bool) (sent zero : F) (N : Z).
Hypothesis HN : 1 <= N.
Hypothesis Hz : nan zero = false.
Definition repl (x : F) : F := if nan x then sent else x.
Lemma ct_map v : count_true_nan (map nan v) = zlen (filter nan v).
Proof. unfold count_true_nan, zlen. f_equal. induction v as [|x v IH]; [reflexivity|]. cbn [map filter]. destruct (nan x); cbn [length]; auto. Qed.
Lemma bs_nan v : forall a b, zlen (a ++ v ++ b) <= 2 ^ 64 -> blended_store (repeat sent (length v)) (map nan v) (a ++ v ++ b) (zlen a) = Some (a ++ map repl v ++ b).
Proof.
  induction v as [|x v IH]; intros a b H; [reflexivity|]. cbn [length repeat map blended_store].
  assert (L : zlen (a ++ (x :: v) ++ b) = zlen a + 1 + zlen v + zlen b) by (unfold zlen; rewrite !app_length; cbn [length]; lia).
  pose proof (zlen_nonneg a). pose proof (zlen_nonneg v). pose proof (zlen_nonneg b). rewrite (wrap_small 64 (zlen a)) by lia. cbn [app].
  assert (G : forall y, blended_store (repeat sent (length v)) (map nan v) (a ++ y :: v ++ b) (zlen a + 1) = Some (a ++ y :: map repl v ++ b)).
  { intros y. specialize (IH (a ++ [y]) b). replace (zlen (a ++ [y])) with (zlen a + 1) in IH by (unfold zlen; rewrite app_length; cbn [length]; lia).
    rewrite <- !app_assoc in IH. cbn [app] in IH. apply IH. unfold zlen in *. rewrite !app_length in *. cbn [length] in *. rewrite app_length in *. lia. }
  unfold repl at 1. destruct (nan x); [|apply G]. rewrite wr_app. apply G.
Qed.
Lemma nan_loop_ok : forall fuel A B cnt, (length B < fuel)%nat -> zlen (A ++ B) < 2 ^ 60 -> exists q, (q <= length B)%nat /\ zlen B - Z.of_nat q < N /\
  nan_loop nan sent N fuel (A ++ B) (zlen (A ++ B)) (zlen A) cnt = Some (A ++ map repl (firstn q B) ++ skipn q B, zlen A + Z.of_nat q, cnt + zlen (filter nan (firstn q B))).
Proof.
  induction fuel as [|f IH]; intros A B cnt Hf HL; [lia|]. cbn [nan_loop]. pose proof (zlen_nonneg A) as HA. pose proof (zlen_nonneg B) as HB. pose proof (zlen_app A B) as LAB.
  assert (STOP : zlen B < N -> exists q, (q <= length B)%nat /\ zlen B - Z.of_nat q < N /\ Some (A ++ B, zlen A, cnt) = Some (A ++ map repl (firstn q B) ++ skipn q B, zlen A + Z.of_nat q, cnt + zlen (filter nan (firstn q B)))).
  { intros H. exists O. split; [lia|]. split; [lia|]. cbn. now rewrite !Z.add_0_r. }
  destruct (Z.leb_spec N (zlen (A ++ B))) as [H1|H1]; cbn [andb]; [|apply STOP; lia].
  rewrite (wrap_small 64 (zlen (A ++ B) - N)) by lia. destruct (Z.leb_spec (zlen A) (zlen (A ++ B) - N)) as [H2|H2]; [|apply STOP; lia].
  rewrite loadu_app by lia. set (v := firstn (Z.to_nat N) B). set (R := skipn (Z.to_nat N) B).
  assert (EB : B = v ++ R) by (symmetry; apply firstn_skipn). assert (Lv : length v = Z.to_nat N) by (unfold v; rewrite firstn_length; unfold zlen in *; lia).
  pose proof (bs_nan v A R) as BS. rewrite <- EB in BS. unfold set. rewrite Lv in BS. rewrite BS by lia. clear BS.
  set (A2 := A ++ map repl v). assert (LA2 : zlen A2 = zlen A + N) by (unfold A2, zlen; rewrite app_length, map_length; lia).
  assert (LR : (length R < f)%nat) by (unfold R; rewrite skipn_length; unfold zlen in *; lia).
  assert (LT : zlen (A2 ++ R) = zlen (A ++ B)) by (rewrite !zlen_app, LA2; unfold R; rewrite zlen_skipn by lia; lia).
  destruct (IH A2 R (cnt + count_true_nan (map nan v)) LR ltac:(lia)) as (q & Q1 & Q2 & E).
  rewrite LT, LA2 in E. unfold A2 in E at 1. rewrite <- app_assoc in E. rewrite E. exists (Z.to_nat N + q)%nat.
  assert (LRB : zlen R = zlen B - N) by (unfold R; apply zlen_skipn; lia).
  split; [unfold zlen in *; lia|]. split; [lia|].
  assert (F1 : firstn (Z.to_nat N + q) B = v ++ firstn q R) by (rewrite firstn_add; reflexivity).
  assert (F2 : skipn (Z.to_nat N + q) B = skipn q R) by (unfold R; rewrite skipn_add; reflexivity).
  rewrite F1, F2, map_app, filter_app, zlen_app, ct_map. unfold A2. rewrite <- !app_assoc. do 2 f_equal; [f_equal|]; lia.
Qed.
Lemma replace_ok raw : zlen raw < 2 ^ 60 -> N < 2 ^ 60 -> count_and_replace_nan nan sent zero N raw = Some (map repl raw, zlen (filter nan raw)).
Proof.
  intros HL HN2. unfold count_and_replace_nan. destruct (nan_loop_ok (S (length raw)) [] raw 0 ltac:(lia) HL) as (q & Q1 & Q2 & E).
  cbn [app] in E. change (zlen (@nil F)) with 0 in E. rewrite E. rewrite !Z.add_0_l.
  set (A := map repl (firstn q raw)). set (R := skipn q raw). assert (LA : zlen A = Z.of_nat q) by (unfold A, zlen; rewrite map_length, firstn_length; lia).
  assert (LR : zlen R = zlen raw - Z.of_nat q) by (unfold R, zlen; rewrite skipn_length; lia). pose proof (zlen_nonneg R) as R0.
  assert (LAR : zlen (A ++ R) = zlen raw) by (rewrite zlen_app; lia).
  rewrite load_n_ok by lia. rewrite Nat2Z.id.
  assert (SK : skipn q (A ++ R) = R). { rewrite skipn_app. unfold zlen in LA. rewrite skipn_all2 by lia. replace (q - length A)%nat with O by lia. reflexivity. }
  rewrite SK, <- LR. assert (FR : firstn (Z.to_nat (zlen R)) R = R) by (apply firstn_all2; unfold zlen; lia). rewrite FR.
  set (P := repeat zero (Z.to_nat (N - zlen R))).
  assert (IT : if_then_else (map nan (R ++ P)) (set N sent) (R ++ P) = map repl (R ++ P)).
  { unfold set. replace (Z.to_nat N) with (length (R ++ P)) by (unfold P; rewrite app_length, repeat_length; unfold zlen in *; lia).
    generalize (R ++ P). clear. induction l as [|x l IH]; [reflexivity|]. cbn [map length repeat]. unfold if_then_else in *. cbn [combine map fst snd]. rewrite IH. reflexivity. }
  rewrite IT, <- LA. rewrite store_n_ok; try lia.
  2:{ unfold zlen in *. unfold P. rewrite map_length, app_length, repeat_length. lia. }
  assert (M : firstn (Z.to_nat (zlen R)) (map repl (R ++ P)) = map repl R).
  { rewrite map_app, firstn_app, map_length. unfold zlen. rewrite Nat2Z.id, Nat.sub_diag, firstn_O, app_nil_r. apply firstn_all2. rewrite map_length. lia. }
  rewrite M. rewrite skipn_all2 by (unfold zlen; lia). rewrite app_nil_r. do 2 f_equal.
  - unfold A, R. rewrite <- map_app. now rewrite firstn_skipn.
  - rewrite ct_map, filter_app, zlen_app. assert (FP : filter nan P = []) by (unfold P; generalize (Z.to_nat (N - zlen R)); clear - Hz; intros m; induction m as [|m IHm]; [reflexivity|]; cbn [repeat filter]; rewrite Hz; exact IHm).
    rewrite FP. change (zlen (@nil F)) with 0. rewrite <- (firstn_skipn q raw) at 2. rewrite filter_app, zlen_app. fold R. lia.
Qed.
End Replace.

Lemma nth_map_inv {A B} (f : A -> B) l i x : nth_error (map f l) i = Some x -> exists y, nth_error l i = Some y /\ x = f y.
Proof. rewrite nth_error_map. destruct (nth_error l i) as [y|]; [|discriminate]. cbn. intros [= <-]. eauto. Qed.
(** copies of the last value are at the end *)
Lemma sorted_tail {K} (lt : K -> K -> bool) (m : K) : total_order lt -> (forall x, lt m x = false) ->
  forall n l A, sorted lt l -> Permutation (A ++ repeat m n) l -> exists B, l = B ++ repeat m n /\ Permutation A B.
Proof.
  intros [SW TO] Hm. induction n as [|n IH]; intros l A S P.
  - cbn in *. rewrite app_nil_r in *. exists l. rewrite app_nil_r. auto.
  - assert (Hne : l <> []). { intros ->. apply Permutation_sym, Permutation_nil in P. apply app_eq_nil in P. destruct P. discriminate. }
    destruct (exists_last Hne) as (l0 & z & ->).
    assert (Hin : In m (l0 ++ [z])) by (apply (Permutation_in _ P), in_or_app; right; left; reflexivity).
    assert (z = m).
    { apply TO; [|apply Hm]. apply in_app_or in Hin. destruct Hin as [Hin|[->|[]]]; [|apply SW]. apply In_nth_error in Hin. destruct Hin as [i Hi].
      assert (Hil : (i < length l0)%nat) by (apply nth_error_Some; congruence).
      apply (S i (length l0) m z Hil); [now rewrite nth_error_app1 by lia|rewrite nth_error_app2, Nat.sub_diag by lia; reflexivity]. }
    subst z. cbn [repeat] in P. rewrite repeat_cons in P. rewrite app_assoc in P. apply Permutation_app_inv_r in P.
    destruct (IH l0 A) as (B & -> & PB); [|exact P|].
    { intros i j x y Hij Hx Hy. assert (j < length l0)%nat by (apply nth_error_Some; congruence). apply (S i j x y Hij); rewrite nth_error_app1 by lia; assumption. }
    exists B. split; [|exact PB]. cbn [repeat]. rewrite repeat_cons, app_assoc. reflexivity.
Qed.

Section Float.
Variables (c : target) (e p : positive) (desc via : bool).
Notation t := (FloatKey e p).
Variables (tail upper : list (key t) -> list bool -> list (key t)).
Hypothesis HK : key_ok t.
Hypothesis HC : target_ok c t.
Hypothesis HP : compress_ok (vec_keys c t) tail upper.
(** any bit pattern except -0.0 *)
Definition raw_ok (z : Z) : Prop := 0 <= z < 2 * fsign e p /\ z <> fsign e p.
Lemma fk_id z : is_key e p z = true -> proj1_sig (fk e p z) = z.
Proof. intros H. unfold fk, fnorm. cbn [proj1_sig]. now rewrite H. Qed.
Lemma raw_key z : raw_ok z -> is_nan e p z = false -> is_key e p z = true.
Proof. intros [H1 H2] H3. unfold is_key. rewrite H3, (proj2 (Z.eqb_neq _ _) H2). cbn [negb]. rewrite !andb_true_r, andb_true_iff, Z.leb_le, Z.ltb_lt. lia. Qed.
Lemma Hfinf : 1 <= finf e p.
Proof. cbn in HK. destruct HK as [E|[E|E]]; injection E as -> ->; vm_compute; discriminate. Qed.
Lemma lastv_sent : t_lastv (key_traits t desc via) = fk e p (sentinel e p desc).
Proof. unfold sentinel. cbn. destruct desc; reflexivity. Qed.
Lemma N_ok : 1 <= vec_keys c t < 2 ^ 60.
Proof.
  destruct HC as ((v & Hv & Ev) & Hm & _ & Hl). unfold vec_keys. pose proof (key_size_cases t HK) as KS.
  assert (E : key_size t = lane_size t) by (unfold key_size; cbn [lanes_per_key]; lia). rewrite <- E in Hl.
  split; [apply Z.div_le_lower_bound; lia|]. apply Z.div_lt_upper_bound; lia.
Qed.
Definition non_nan (z : Z) : bool := negb (is_nan e p z).
Lemma nan_sort_ok addr raw buf s : Forall raw_ok raw -> enabled c = true \/ raw <> [] -> zlen buf = buf_keys c t -> 0 <= addr -> zlen raw < 2 ^ 60 -> rng_ok s ->
  exists keys s', vq_sort_float c e p desc via tail upper addr raw buf s = Some (keys ++ repeat (canonical_nan e p) (length (filter (is_nan e p) raw)), s') /\
    Permutation (filter non_nan raw) keys /\ sorted (fun b a => if desc then fval e p a <? fval e p b else fval e p b <? fval e p a) keys.
Proof.
  intros HR En HB Ha HL Hs. unfold vq_sort_float, with_nan. pose proof N_ok as HN.
  rewrite replace_ok; [|lia| |exact HL|lia].
  2:{ pose proof (finf_lt e p). unfold is_nan, fabs. rewrite Zmod_0_l. apply Z.ltb_ge. lia. }
  set (n := length (filter (is_nan e p) raw)). set (keys := map (fk e p) (map (repl (is_nan e p) (sentinel e p desc)) raw)).
  assert (LK : zlen keys = zlen raw) by (unfold keys, zlen; now rewrite !map_length).
  destruct (sort_ok c t desc via tail upper HK HC HP addr keys buf s) as (keys' & s' & E & P & S); auto; try lia.
  { destruct En as [En|En]; [left; exact En|]. right. intros E0. apply En. unfold keys in E0. apply map_eq_nil in E0. now apply map_eq_nil in E0. }
  { change (@zlen (fkey e p) keys < 2 ^ 60). lia. }
  rewrite E.
  assert (PK : Permutation (map (fk e p) (filter non_nan raw) ++ repeat (fk e p (sentinel e p desc)) n) keys).
  { unfold keys, n, non_nan. clear. induction raw as [|x l IH]; [constructor|]. cbn [filter map]. unfold repl at 1. destruct (is_nan e p x); cbn [negb length repeat map app].
    - rewrite <- IH. symmetry. apply Permutation_middle.
    - now constructor. }
  destruct (sorted_tail (t_lt (key_traits t desc via)) (fk e p (sentinel e p desc))) with (n := n) (l := keys') (A := map (fk e p) (filter non_nan raw)) as (B & EB & PB).
  { apply (tok_kv _ (key_traits_ok t desc via HK)). reflexivity. }
  { intros x. rewrite <- lastv_sent. pose proof (tok_pad _ (key_traits_ok t desc via HK) x) as HPD. destruct (t_lt (key_traits t desc via) (t_lastv (key_traits t desc via)) x) eqn:EL; [|reflexivity].
    rewrite (tok_refine _ (key_traits_ok t desc via HK) _ _ EL) in HPD. discriminate. }
  { exact S. }
  { rewrite <- P. exact PK. }
  exists (map (@proj1_sig _ _) B), s'. split; [|split].
  - rewrite EB, map_app. unfold fill_nan.
    assert (Ln : zlen (filter (is_nan e p) raw) = Z.of_nat n) by reflexivity. rewrite Ln.
    destruct (Z.eqb_spec (Z.of_nat n) 0) as [E0|N0]; cbn [negb].
    + replace n with O by lia. cbn. now rewrite !app_nil_r.
    + assert (FL : forall M X : list Z, length X = n -> storeu (M ++ X) (zlen (M ++ X) - Z.of_nat n) (repeat (canonical_nan e p) n) = Some (M ++ repeat (canonical_nan e p) n)).
      { intros M X LX. replace (zlen (M ++ X) - Z.of_nat n) with (zlen M) by (unfold zlen; rewrite app_length; lia). rewrite storeu_app by (unfold zlen; rewrite repeat_length; lia).
        rewrite repeat_length, skipn_all2, app_nil_r by lia. reflexivity. }
      rewrite Nat2Z.id. match goal with |- context [storeu (?M ++ ?X) _ _] => rewrite (FL M X) end; [reflexivity|]. rewrite map_length, repeat_length. reflexivity.
  - rewrite <- (map_id (filter non_nan raw)). rewrite <- PB, map_map.
    assert (X : map (fun x => x) (filter non_nan raw) = map (fun x => proj1_sig (fk e p x)) (filter non_nan raw)).
    { apply map_ext_in. intros z Hz. apply filter_In in Hz. destruct Hz as [Hz1 Hz2]. symmetry. apply fk_id, raw_key; [rewrite Forall_forall in HR; auto|]. unfold non_nan in Hz2. now apply negb_true_iff. }
    rewrite X. reflexivity.
  - intros i j x y Hij Hx Hy. apply nth_map_inv in Hx, Hy. destruct Hx as (x' & Ex & ->), Hy as (y' & Ey & ->).
    assert (SB : t_lt (key_traits t desc via) y' x' = false).
    { rewrite EB in S. assert (HI : (i < @length (key t) B)%nat) by (apply (proj1 (nth_error_Some B i)); intros X0; pose proof (Logic.eq_trans (Logic.eq_sym Ex) X0); discriminate).
      assert (HJ : (j < @length (key t) B)%nat) by (apply (proj1 (nth_error_Some B j)); intros X0; pose proof (Logic.eq_trans (Logic.eq_sym Ey) X0); discriminate).
      apply (S i j x' y' Hij); rewrite nth_error_app1 by assumption; assumption. }
    cbn [key_traits float_traits t_lt] in SB. unfold v_lt, ord, fv in SB. destruct desc; [|exact SB]. apply Z.ltb_ge in SB. apply Z.ltb_ge. lia.
Qed.
End Float.
