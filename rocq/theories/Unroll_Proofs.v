(** Proofs about the Unroller model. *)
From Coq Require Import ZArith List Bool Lia Arith.
From Verif Require Import Word Word_Proofs Vec_Model Vec_Proofs Dot_Model Dot_Proofs MatVec_Proofs Unroll_Model.
Import ListNotations.
Local Open Scope Z_scope.

Lemma rd_some {A} (l : list A) i : 0 <= i < zlen l -> exists x, rd l i = Some x.
Proof.
  intros H. unfold rd, zlen in *. destruct (Z.ltb_spec i 0); [lia|]. destruct (nth_error l (Z.to_nat i)) eqn:E; [eauto|]. apply nth_error_None in E. lia.
Qed.
Lemma rd_cons {A} (x : A) l i : 0 < i -> rd (x :: l) i = rd l (i - 1).
Proof. intros H. unfold rd. destruct (Z.ltb_spec i 0), (Z.ltb_spec (i - 1) 0); try lia. replace (Z.to_nat i) with (S (Z.to_nat (i - 1))) by lia. reflexivity. Qed.
Lemma rd_neg {A} (l : list A) i : i < 0 -> rd l i = None.
Proof. intros H. unfold rd. destruct (Z.ltb_spec i 0); [reflexivity|lia]. Qed.
Lemma rd_ext {A} (a b : list A) : length a = length b -> (forall k, 0 <= k < zlen a -> rd a k = rd b k) -> a = b.
Proof.
  revert b. induction a as [|x a IH]; intros [|y b] HL H; cbn in HL; try lia; [reflexivity|]. f_equal.
  - specialize (H 0 ltac:(unfold zlen; cbn; lia)). now inversion H.
  - apply IH; [lia|]. intros k Hk. specialize (H (k + 1) ltac:(unfold zlen in *; cbn [length]; lia)). rewrite !rd_cons in H by lia. now replace (k + 1 - 1) with k in H by lia.
Qed.
Lemma rd_wr {A} (l : list A) i x : 0 <= i < zlen l -> exists l', wr l i x = Some l' /\ zlen l' = zlen l /\ forall j, 0 <= j < zlen l -> rd l' j = if j =? i then Some x else rd l j.
Proof.
  intros H. unfold wr. destruct (Z.leb_spec 0 i); [|lia]. destruct (Z.ltb_spec i (zlen l)); [|lia]. eexists. split; [reflexivity|].
  assert (LF : length (firstn (Z.to_nat i) l) = Z.to_nat i) by (rewrite firstn_length; unfold zlen in *; lia). split.
  - unfold zlen in *. rewrite app_length. cbn [length]. rewrite LF, skipn_length. lia.
  - intros j Hj. unfold rd. destruct (Z.ltb_spec j 0); [lia|]. destruct (Z.eqb_spec j i) as [->|Hne].
    + rewrite nth_error_app2 by lia. rewrite LF, Nat.sub_diag. reflexivity.
    + destruct (Z_lt_ge_dec j i).
      * rewrite nth_error_app1 by lia. rewrite ne_firstn by lia. reflexivity.
      * rewrite nth_error_app2 by lia. rewrite LF. destruct (Z.to_nat j - Z.to_nat i)%nat eqn:E; [lia|]. cbn [nth_error]. rewrite ne_skipn. f_equal. lia.
Qed.
Definition nthb (m : list bool) (k : Z) : bool := match rd m k with Some b => b | None => false end.
Lemma nthb_cons b m k : nthb (b :: m) k = if k =? 0 then b else nthb m (k - 1).
Proof.
  unfold nthb. destruct (Z.eqb_spec k 0) as [->|]; [reflexivity|]. destruct (Z_lt_ge_dec k 0); [rewrite !rd_neg by lia; reflexivity|]. rewrite rd_cons by lia. reflexivity.
Qed.
Lemma bs_gen {A} (v : list A) : forall m l off, length m = length v -> zlen l <= 2 ^ 64 -> (forall k, nthb m k = true -> 0 <= off + k < zlen l) ->
  exists l', blended_store v m l off = Some l' /\ zlen l' = zlen l /\ forall j, 0 <= j < zlen l -> rd l' j = if nthb m (j - off) then rd v (j - off) else rd l j.
Proof.
  induction v as [|x v IH]; intros [|b m] l off HL HW HB; cbn in HL; try lia.
  - exists l. split; [reflexivity|]. split; [reflexivity|]. intros j Hj. unfold nthb, rd. destruct (j - off <? 0); [reflexivity|]. now destruct (Z.to_nat (j - off)).
  - cbn [blended_store].
    assert (exists l1, (if b then wr l (wrap 64 off) x else Some l) = Some l1 /\ zlen l1 = zlen l /\ forall j, 0 <= j < zlen l -> rd l1 j = if (j =? off) && b then Some x else rd l j) as (l1 & E1 & L1 & R1).
    { destruct b.
      - assert (B0 : 0 <= off < zlen l) by (specialize (HB 0); rewrite nthb_cons in HB; cbn in HB; specialize (HB eq_refl); lia).
        rewrite wrap_small by lia. destruct (rd_wr l off x B0) as (l1 & E & L1 & R). exists l1. split; [exact E|]. split; [exact L1|]. intros j Hj. rewrite R by lia. now rewrite andb_true_r.
      - exists l. split; [reflexivity|]. split; [reflexivity|]. intros j Hj. now rewrite andb_false_r. }
    rewrite E1. destruct (IH m l1 (off + 1) ltac:(lia) ltac:(lia)) as (l' & E & L' & R).
    { intros k Hk. assert (0 <= k) by (destruct (Z_lt_ge_dec k 0); [unfold nthb in Hk; rewrite rd_neg in Hk by lia; discriminate|lia]).
      specialize (HB (k + 1)). rewrite nthb_cons in HB. destruct (Z.eqb_spec (k + 1) 0); [lia|]. replace (k + 1 - 1) with k in HB by lia. specialize (HB Hk). lia. }
    exists l'. split; [exact E|]. split; [lia|]. intros j Hj. rewrite R by lia. rewrite nthb_cons. replace (j - off - 1) with (j - (off + 1)) by lia.
    destruct (Z.eqb_spec (j - off) 0) as [Hz|Hz].
    + assert (N0 : nthb m (j - (off + 1)) = false) by (unfold nthb; rewrite rd_neg by lia; reflexivity). rewrite N0, R1 by lia. destruct (Z.eqb_spec j off); [|lia]. rewrite Hz. now destruct b.
    + destruct (nthb m (j - (off + 1))) eqn:EN.
      * rewrite rd_cons; [f_equal; lia|]. destruct (Z_lt_ge_dec (j - (off + 1)) 0); [unfold nthb in EN; rewrite rd_neg in EN by lia; discriminate|lia].
      * rewrite R1 by lia. destruct (Z.eqb_spec j off); [lia|]. reflexivity.
Qed.
Lemma ml_gen {A} (z : A) : forall m l off, zlen l <= 2 ^ 64 -> (forall k, nthb m k = true -> 0 <= off + k < zlen l) ->
  exists v, masked_load z m l off = Some v /\ length v = length m /\ forall k, 0 <= k < zlen m -> rd v k = if nthb m k then rd l (off + k) else Some z.
Proof.
  induction m as [|b m IH]; intros l off HW HB.
  - exists []. split; [reflexivity|]. split; [reflexivity|]. intros k Hk. unfold zlen in Hk. cbn in Hk. lia.
  - unfold masked_load in *. cbn [map masked_load_or].
    assert (exists y, (if b then rd l (wrap 64 off) else Some z) = Some y /\ (if b then rd l off else Some z) = Some y) as (y & E1 & E2).
    { destruct b; [|eauto]. assert (B0 : 0 <= off < zlen l) by (specialize (HB 0); rewrite nthb_cons in HB; cbn in HB; specialize (HB eq_refl); lia).
      rewrite wrap_small by lia. destruct (rd_some l off B0) as (y & E). eauto. }
    rewrite E1. destruct (IH l (off + 1) HW) as (v & E & LV & R).
    { intros k Hk. assert (0 <= k) by (destruct (Z_lt_ge_dec k 0); [unfold nthb in Hk; rewrite rd_neg in Hk by lia; discriminate|lia]).
      specialize (HB (k + 1)). rewrite nthb_cons in HB. destruct (Z.eqb_spec (k + 1) 0); [lia|]. replace (k + 1 - 1) with k in HB by lia. specialize (HB Hk). lia. }
    rewrite E. exists (y :: v). split; [reflexivity|]. split; [cbn; lia|]. intros k Hk. rewrite nthb_cons. destruct (Z.eqb_spec k 0) as [->|Hz].
    + rewrite rd_0, Z.add_0_r. now rewrite E2.
    + rewrite rd_cons by lia. rewrite R by (unfold zlen in *; cbn [length] in *; lia). replace (off + 1 + (k - 1)) with (off + k) by lia. reflexivity.
Qed.
Lemma nthb_map (P : Z -> bool) L k : 0 <= L -> nthb (map (fun i => P (Z.of_nat i)) (seq 0 (Z.to_nat L))) k = (0 <=? k) && (k <? L) && P k.
Proof.
  intros HL. unfold nthb, rd. destruct (Z.ltb_spec k 0).
  - destruct (Z.leb_spec 0 k); [lia|]. reflexivity.
  - destruct (Z.leb_spec 0 k); [|lia]. cbn [andb]. destruct (Z.ltb_spec k L).
    + assert (E : nth_error (seq 0 (Z.to_nat L)) (Z.to_nat k) = Some (Z.to_nat k)).
      { rewrite nth_error_nth' with (d := O) by (rewrite seq_length; lia). f_equal. rewrite seq_nth by lia. lia. }
      rewrite (map_nth_error _ _ _ E). now rewrite Z2Nat.id by lia.
    + rewrite (proj2 (nth_error_None _ _)); [reflexivity|]. rewrite map_length, seq_length. lia.
Qed.
Lemma mask_neg L p k : 0 < L < 2 ^ 63 -> - L <= p < 0 -> nthb (places_mask L p) k = (L + p <=? k) && (k <? L).
Proof.
  intros HL Hp. unfold places_mask. cbv zeta. destruct (Z.ltb_spec p 0); [|lia]. rewrite (wrap_small 64 (p + L)) by lia. unfold mask_not, first_n. rewrite map_map.
  rewrite (nthb_map (fun i => negb (i <? p + L)) L k) by lia. destruct (Z.leb_spec 0 k), (Z.ltb_spec k L), (Z.ltb_spec k (p + L)), (Z.leb_spec (L + p) k); try lia; reflexivity.
Qed.
Lemma mask_pos L p k : 0 < L < 2 ^ 63 -> 0 <= p <= L -> nthb (places_mask L p) k = (0 <=? k) && (k <? p).
Proof.
  intros HL Hp. unfold places_mask. cbv zeta. destruct (Z.ltb_spec p 0); [lia|]. rewrite (wrap_small 64 p) by lia. unfold first_n.
  rewrite (nthb_map (fun i => i <? p) L k) by lia. destruct (Z.leb_spec 0 k), (Z.ltb_spec k L), (Z.ltb_spec k p); try lia; reflexivity.
Qed.
Lemma mask_len L p : length (places_mask L p) = Z.to_nat L.
Proof. unfold places_mask. cbv zeta. destruct (p <? 0); unfold mask_not, first_n; rewrite ?map_length, seq_length; reflexivity. Qed.

Lemma seq_shift_n len s : map (fun k => (s + k)%nat) (seq 0 len) = seq s len.
Proof. revert s. induction len as [|len IH]; intros s; [reflexivity|]. cbn [seq map]. f_equal; [lia|]. rewrite <- seq_shift, map_map, <- (IH (S s)). apply map_ext. intros; lia. Qed.
Lemma zlen_cons {A} (x : A) l : zlen (x :: l) = 1 + zlen l.
Proof. unfold zlen. cbn [length]. lia. Qed.
Lemma rd_app1 {A} (a b : list A) i : i < zlen a -> rd (a ++ b) i = rd a i.
Proof. intros H. unfold rd, zlen in *. destruct (Z.ltb_spec i 0); [reflexivity|]. rewrite nth_error_app1 by lia. reflexivity. Qed.
(** ** Element-wise units *)
Section Map.
Context {XV B : Type} (func : Z -> XV -> list B -> list B) (yinit : list B) (zero : B) (L n : Z).
Context (ld : Z -> option XV) (mld : Z -> Z -> option XV) (tmld : option XV) (G : Z -> B) (y0 : list B).
Definition gives (i lo hi : Z) (xv : XV) : Prop := forall yv, let v := func i xv yv in zlen v = L /\ forall k, lo <= k < hi -> rd v k = Some (G (i + k)).
Hypothesis HL : 0 < L < 2 ^ 63.
Hypothesis Hn : 0 <= n <= zlen y0.
Hypothesis HW : zlen y0 <= 2 ^ 64.
Hypothesis Hld : forall i, 0 <= i -> i + L <= n -> exists xv, ld i = Some xv /\ gives i 0 L xv.
Hypothesis Hmld : forall p, 0 < p < L -> p <= n -> exists xv, mld (n - L) (- p) = Some xv /\ gives (n - L) (L - p) L xv.
Hypothesis Htmld : n < L -> exists xv, tmld = Some xv /\ gives 0 0 n xv.
Definition W (i : Z) (y : list B) : Prop := zlen y = zlen y0 /\ forall k, 0 <= k < zlen y0 -> rd y k = if k <? i then Some (G k) else rd y0 k.
Let f := map_unit L yinit func.
Lemma W_init : W 0 y0.
Proof. split; [reflexivity|]. intros k Hk. destruct (Z.ltb_spec k 0); [lia|]. reflexivity. Qed.
Lemma store_W i y v : 0 <= i -> i + L <= n -> W i y -> zlen v = L -> (forall k, 0 <= k < L -> rd v k = Some (G (i + k))) ->
  exists y', store_impl i y v = Some (y', true) /\ W (i + L) y'.
Proof.
  intros Hi Hin (Ly & Ry) Lv Rv. unfold store_impl. destruct (storeu y i v) as [y'|] eqn:E.
  2:{ unfold storeu in E. destruct (Z.leb_spec 0 i); [|lia]. destruct (Z.leb_spec (i + zlen v) (zlen y)); [discriminate|lia]. }
  exists y'. split; [reflexivity|]. destruct (rd_storeu y v y' i E Hi) as (L' & R'). split; [unfold zlen in *; lia|]. intros k Hk. rewrite R' by lia. rewrite Lv.
  destruct (Z.leb_spec i k), (Z.ltb_spec k (i + L)); cbn [andb]; try lia.
  - rewrite Rv by lia. do 2 f_equal. lia.
  - rewrite Ry by lia. destruct (Z.ltb_spec k i); [lia|]. reflexivity.
  - rewrite Ry by lia. destruct (Z.ltb_spec k i); [reflexivity|lia].
Qed.
Lemma mask_store_W i y v : 0 <= i < n -> n - i < L -> W i y -> zlen v = L -> (forall k, L - (n - i) <= k < L -> rd v k = Some (G (n - L + k))) ->
  exists y', mask_store_impl L (n - L) y v (i - n) = Some (y', n - i) /\ W n y'.
Proof.
  intros Hi Hin (Ly & Ry) Lv Rv. unfold mask_store_impl. destruct (bs_gen v (places_mask L (i - n)) y (n - L)) as (y' & E & L' & R').
  - rewrite mask_len. unfold zlen in Lv. lia.
  - lia.
  - intros k Hk. rewrite mask_neg in Hk by lia. apply andb_true_iff in Hk. destruct Hk as (H1 & H2). apply Z.leb_le in H1. apply Z.ltb_lt in H2. lia.
  - rewrite E. cbn [bind]. exists y'. split; [do 2 f_equal; lia|]. split; [lia|]. intros k Hk. rewrite R' by lia. rewrite mask_neg by lia.
    destruct (Z.leb_spec (L + (i - n)) (k - (n - L))), (Z.ltb_spec (k - (n - L)) L), (Z.ltb_spec k n); cbn [andb]; try lia.
    + rewrite Rv by lia. do 2 f_equal. lia.
    + rewrite Ry by lia. destruct (Z.ltb_spec k i); [lia|]. reflexivity.
    + rewrite Ry by lia. destruct (Z.ltb_spec k i); [reflexivity|lia].
Qed.
Lemma map_loop4 : forall fuel i y s, n < i + Z.of_nat fuel -> 0 <= i <= n -> W i y -> 
  exists i' y' s', loop4 f L n ld fuel i y s = Some (inr (i', y', s')) /\ 0 <= i' <= n /\ W i' y'.
Proof.
  induction fuel as [|fuel IH]; intros i y s Hf Hi HWi; [lia|]. cbn [loop4]. destruct (Z.ltb_spec (i + 4 * L - 1) n); [|exists i, y, s; auto].
  destruct (Hld i) as (x0 & -> & G0); [lia..|]. destruct (Hld (i + L)) as (x1 & -> & G1); [lia..|]. destruct (Hld (i + L + L)) as (x2 & -> & G2); [lia..|]. destruct (Hld (i + L + L + L)) as (x3 & -> & G3); [lia..|].
  cbn [bind]. cbv zeta. destruct s as (((s0 & s1) & s2) & s3). replace (i + L + L + L - 3 * L) with i by lia. replace (i + 2 * L) with (i + L + L) by lia. replace (i + 3 * L) with (i + L + L + L) by lia.
  cbn [f map_unit u_store u_func].
  destruct (store_W i y (func i x0 s0)) as (y1 & -> & W1); [lia..|exact HWi|apply G0|apply G0|]. cbn [bind negb].
  destruct (store_W (i + L) y1 (func (i + L) x1 s1)) as (y2 & -> & W2); [lia..|exact W1|apply G1|apply G1|]. cbn [bind negb].
  destruct (store_W (i + L + L) y2 (func (i + L + L) x2 s2)) as (y3 & -> & W3); [lia..|exact W2|apply G2|apply G2|]. cbn [bind negb].
  destruct (store_W (i + L + L + L) y3 (func (i + L + L + L) x3 s3)) as (y4 & -> & W4); [lia..|exact W3|apply G3|apply G3|]. cbn [bind negb].
  apply IH; [lia|lia|exact W4].
Qed.
Lemma map_loop1 : forall fuel i y s, n < i + Z.of_nat fuel -> 0 <= i <= n -> W i y -> 
  exists i' y' s', loop1 f L n ld fuel i y s = Some (inr (i', y', s')) /\ 0 <= i' <= n /\ n < i' + L /\ W i' y'.
Proof.
  induction fuel as [|fuel IH]; intros i y s Hf Hi HWi; [lia|]. cbn [loop1]. destruct (Z.ltb_spec (i + L - 1) n); [|exists i, y, s; split; [reflexivity|]; split; [lia|]; split; [lia|exact HWi]].
  destruct (Hld i) as (x0 & -> & G0); [lia..|]. cbn [bind]. cbv zeta. cbn [f map_unit u_store u_func].
  destruct (store_W i y (func i x0 s)) as (y1 & -> & W1); [lia..|exact HWi|apply G0|apply G0|]. cbn [bind negb].
  apply IH; [lia|lia|exact W1].
Qed.
Theorem map_unroller_ok fault small gy : (fault = true -> small = (n <? L)) -> L + zlen gy <= 2 ^ 64 ->
  exists y, unroller f zero L n ld mld tmld fault small gy y0 = Some y /\ W n y.
Proof.
  intros Hs HG. unfold unroller. cbv zeta. destruct (fault && small) eqn:EF.
  - apply andb_true_iff in EF. destruct EF as (-> & ->). specialize (Hs eq_refl). symmetry in Hs. apply Z.ltb_lt in Hs.
    destruct (Htmld Hs) as (xv & -> & Gx). cbn [bind]. destruct (Gx (u_yinit f)) as (Lv & Rv). set (v := func 0 xv (u_yinit f)) in *.
    assert (LZ : zlen (repeat zero (Z.to_nat L)) = L) by (unfold zlen; rewrite repeat_length; lia).
    unfold storeu at 1. cbn [Z.leb Z.compare]. rewrite LZ, zlen_app, LZ. destruct (Z.leb_spec (0 + L) (L + zlen gy)); [|unfold zlen in *; lia].
    cbn [andb bind Z.to_nat firstn app Nat.add f map_unit u_mask_store u_func]. fold v. unfold mask_store_impl.
    set (yt := repeat zero (Z.to_nat L) ++ skipn _ _). assert (Lt : zlen yt = L + zlen gy).
    { unfold yt. rewrite zlen_app, LZ. f_equal. rewrite skipn_app, repeat_length, Nat.sub_diag, skipn_all2 by (rewrite repeat_length; lia). reflexivity. }
    destruct (bs_gen v (places_mask L n) yt 0) as (y' & E & L' & R').
    { rewrite mask_len. unfold zlen in Lv. lia. }
    { lia. }
    { intros k Hk. rewrite mask_pos in Hk by lia. apply andb_true_iff in Hk. destruct Hk as (H1 & H2). apply Z.leb_le in H1. apply Z.ltb_lt in H2. unfold zlen in *. lia. }
    rewrite E. cbn [bind u_reduce reduce_impl f map_unit]. rewrite Z.abs_eq, Z.add_0_r by lia. unfold zlen in HG. assert (0 <= zlen gy) by (unfold zlen; lia).
    rewrite loadu_ok by lia. cbn [bind Z.to_nat skipn]. set (w := firstn (Z.to_nat n) y'). assert (LW : zlen w = n) by (unfold w; apply zlen_firstn; lia).
    unfold storeu. rewrite LW. cbn [Z.leb Z.compare andb]. destruct (Z.leb_spec (0 + n) (zlen y0)); [|lia]. cbn [Z.to_nat firstn app Nat.add]. eexists. split; [reflexivity|].
    assert (Lw : length w = Z.to_nat n) by (unfold zlen in LW; lia). split.
    + rewrite zlen_app, LW, Lw, zlen_skipn by lia. lia.
    + intros k Hk. destruct (Z.ltb_spec k n).
      * rewrite rd_app1 by lia. unfold w, rd. destruct (Z.ltb_spec k 0); [lia|]. rewrite ne_firstn by lia. specialize (R' k ltac:(lia)). rewrite mask_pos, Z.sub_0_r in R' by lia.
        destruct (Z.leb_spec 0 k); [|lia]. destruct (Z.ltb_spec k n); [|lia]. cbn [andb] in R'. rewrite Rv in R' by lia. unfold rd in R'. destruct (Z.ltb_spec k 0); [lia|]. exact R'.
      * rewrite rd_app2 by lia. rewrite LW, Lw. unfold rd. destruct (Z.ltb_spec (k - n) 0), (Z.ltb_spec k 0); try lia. rewrite ne_skipn. f_equal. lia.
  - assert (exists i y s, (if 4 * L <? n then do r <- loop4 f L n ld (S (Z.to_nat n)) 0 y0 (u_yinit f, u_yinit f, u_yinit f, u_yinit f);
               match r with inl y => Some (inl y) | inr (i, y, (yy, yy1, yy2, yy3)) => Some (inr (i, y, u_reduce3 f yy3 yy2 yy1 yy)) end
             else Some (inr (0, y0, u_yinit f))) = Some (inr (i, y, s)) /\ 0 <= i <= n /\ W i y) as (i & y & s & -> & Hi & HWi).
    { destruct (4 * L <? n).
      - destruct (map_loop4 (S (Z.to_nat n)) 0 y0 (u_yinit f, u_yinit f, u_yinit f, u_yinit f)) as (i & y & s & -> & Hi & HWi); [lia|lia|apply W_init|]. cbn [bind].
        destruct s as (((s0 & s1) & s2) & s3). eauto 8.
      - exists 0, y0, (u_yinit f). split; [reflexivity|]. split; [lia|apply W_init]. }
    cbn [bind]. destruct (map_loop1 (S (Z.to_nat n)) i y s) as (i1 & y1 & s1 & -> & Hi1 & Hr & W1); [lia|lia|exact HWi|]. cbn [bind].
    destruct (Z.eqb_spec i1 n) as [->|Hne].
    + cbn [bind f map_unit u_reduce reduce_impl]. eauto.
    + destruct (Hmld (n - i1)) as (xv & E & Gx); [lia..|]. replace (- (n - i1)) with (i1 - n) in E by lia. rewrite E. cbn [bind]. cbn [f map_unit u_mask_store u_func].
      destruct (mask_store_W i1 y1 (func (n - L) xv s1)) as (y2 & -> & W2); [lia|lia|exact W1|apply Gx|apply Gx|]. cbn [bind f map_unit u_reduce reduce_impl]. eauto.
Qed.
End Map.

(** ** Reducing units *)
Section Reduce.
Context {XV B : Type} (op : B -> B -> B) (e : B) (func : Z -> XV -> list B -> list B) (zero : B) (L n : Z).
Hypothesis op_comm : forall x y, op x y = op y x.
Hypothesis op_assoc : forall x y z, op x (op y z) = op (op x y) z.
Hypothesis op_e : forall x, op e x = x.
Context (ld : Z -> option XV) (mld : Z -> Z -> option XV) (tmld : option XV) (G : Z -> B).
Local Notation total := (reduce_sum op e).
(** G lo + ... + G (hi - 1) *)
Definition range_sum (lo hi : Z) : B := total (map (fun k => G (lo + Z.of_nat k)) (seq 0 (Z.to_nat (hi - lo)))).
Definition adds (i lo hi : Z) (xv : XV) : Prop := forall yv, zlen yv = L -> zlen (func i xv yv) = L /\ total (func i xv yv) = op (total yv) (range_sum lo hi).
Hypothesis HL : 0 < L < 2 ^ 63.
Hypothesis Hn : 0 <= n.
Hypothesis Hld : forall i, 0 <= i -> i + L <= n -> exists xv, ld i = Some xv /\ adds i i (i + L) xv.
Hypothesis Hmld : forall p, 0 < p < L -> p <= n -> exists xv, mld (n - L) (- p) = Some xv /\ adds (n - L) (n - p) n xv.
Hypothesis Htmld : n < L -> exists xv, tmld = Some xv /\ adds 0 0 n xv.
Let f := reduce_unit op e L func.
Lemma range_split lo mid hi : lo <= mid <= hi -> range_sum lo hi = op (range_sum lo mid) (range_sum mid hi).
Proof.
  intros H. unfold range_sum. replace (Z.to_nat (hi - lo)) with (Z.to_nat (mid - lo) + Z.to_nat (hi - mid))%nat by lia. rewrite seq_app, map_app, (total_app op e op_assoc op_e). f_equal.
  cbn [Nat.add]. rewrite <- (seq_shift_n (Z.to_nat (hi - mid)) (Z.to_nat (mid - lo))), map_map. f_equal. apply map_ext. intros k. f_equal. lia.
Qed.
Lemma range_nil lo : range_sum lo lo = e.
Proof. unfold range_sum. rewrite Z.sub_diag. reflexivity. Qed.
Definition V1 (i : Z) (v : list B) : Prop := zlen v = L /\ total v = range_sum 0 i.
Definition V4 (i : Z) (s : vecs4) : Prop := let '(s0, s1, s2, s3) := s in zlen s0 = L /\ zlen s1 = L /\ zlen s2 = L /\ zlen s3 = L /\
  op (op (total s0) (total s3)) (op (total s2) (total s1)) = range_sum 0 i.
Lemma yinit_L : zlen (u_yinit f) = L. Proof. cbn [f reduce_unit u_yinit]. unfold zlen. rewrite repeat_length. lia. Qed.
Lemma yinit_total : total (u_yinit f) = e. Proof. cbn [f reduce_unit u_yinit]. apply (total_zero op e op_e). Qed.
Lemma shuffle a b c d p q r s : op (op (op a p) (op d s)) (op (op c r) (op b q)) = op (op (op a d) (op c b)) (op (op (op p q) r) s).
Proof.
  rewrite (swap4 op op_comm op_assoc a p d s), (swap4 op op_comm op_assoc c r b q), (swap4 op op_comm op_assoc (op a d) (op p s) (op c b) (op r q)). f_equal.
  rewrite (op_comm r q), (op_comm p s), <- (op_assoc s p (op q r)), (op_comm s), (op_assoc p q r). reflexivity.
Qed.
Lemma red_loop4 : forall fuel i y s, n < i + Z.of_nat fuel -> 0 <= i <= n -> V4 i s ->
  exists i' s', loop4 f L n ld fuel i y s = Some (inr (i', y, s')) /\ 0 <= i' <= n /\ V4 i' s'.
Proof.
  induction fuel as [|fuel IH]; intros i y s Hf Hi HV; [lia|]. cbn [loop4]. destruct (Z.ltb_spec (i + 4 * L - 1) n); [|exists i, s; auto].
  destruct (Hld i) as (x0 & -> & G0); [lia..|]. destruct (Hld (i + L)) as (x1 & -> & G1); [lia..|]. destruct (Hld (i + L + L)) as (x2 & -> & G2); [lia..|]. destruct (Hld (i + L + L + L)) as (x3 & -> & G3); [lia..|].
  cbn [bind]. cbv zeta. destruct s as (((s0 & s1) & s2) & s3). replace (i + L + L + L - 3 * L) with i by lia. replace (i + 2 * L) with (i + L + L) by lia. replace (i + 3 * L) with (i + L + L + L) by lia.
  cbn [f reduce_unit u_store u_func bind negb]. destruct HV as (L0 & L1 & L2 & L3 & E). apply IH; [lia|lia|].
  destruct (G0 s0 L0) as (K0 & E0), (G1 s1 L1) as (K1 & E1), (G2 s2 L2) as (K2 & E2), (G3 s3 L3) as (K3 & E3). split; [exact K0|]. split; [exact K1|]. split; [exact K2|]. split; [exact K3|].
  rewrite E0, E1, E2, E3, shuffle, E. rewrite (range_split 0 i (i + L + L + L + L)) by lia. f_equal.
  rewrite (range_split i (i + L + L + L) (i + L + L + L + L)) by lia. f_equal. rewrite (range_split i (i + L + L) (i + L + L + L)) by lia. f_equal. rewrite (range_split i (i + L) (i + L + L)) by lia. reflexivity.
Qed.
Lemma red_loop1 : forall fuel i y v, n < i + Z.of_nat fuel -> 0 <= i <= n -> V1 i v ->
  exists i' v', loop1 f L n ld fuel i y v = Some (inr (i', y, v')) /\ 0 <= i' <= n /\ n < i' + L /\ V1 i' v'.
Proof.
  induction fuel as [|fuel IH]; intros i y v Hf Hi (LV & EV); [lia|]. cbn [loop1]. destruct (Z.ltb_spec (i + L - 1) n); [|exists i, v; split; [reflexivity|]; split; [lia|]; split; [lia|split; assumption]].
  destruct (Hld i) as (x0 & -> & G0); [lia..|]. cbn [bind]. cbv zeta. cbn [f reduce_unit u_store u_func bind negb]. apply IH; [lia|lia|].
  destruct (G0 v LV) as (K0 & E0). split; [exact K0|]. rewrite E0, EV. symmetry. apply range_split. lia.
Qed.
Theorem reduce_unroller_ok fault small gy y0 : (fault = true -> small = (n <? L)) -> 1 <= zlen y0 ->
  unroller f zero L n ld mld tmld fault small gy y0 = wr y0 0 (range_sum 0 n).
Proof.
  intros Hs Hy. unfold unroller. cbv zeta. destruct (fault && small) eqn:EF.
  - apply andb_true_iff in EF. destruct EF as (-> & ->). specialize (Hs eq_refl). symmetry in Hs. apply Z.ltb_lt in Hs.
    destruct (Htmld Hs) as (xv & -> & Gx). cbn [bind]. destruct (Gx (u_yinit f) yinit_L) as (Lv & Ev). rewrite yinit_total, op_e in Ev.
    assert (LZ : zlen (repeat zero (Z.to_nat L)) = L) by (unfold zlen; rewrite repeat_length; lia).
    unfold storeu at 1. cbn [Z.leb Z.compare]. rewrite LZ, zlen_app, LZ. pose proof (zlen_nonneg gy). destruct (Z.leb_spec (0 + L) (L + zlen gy)); [|lia].
    cbn [andb bind Z.to_nat firstn app Nat.add f reduce_unit u_mask_store u_func u_reduce]. cbn [f reduce_unit] in Ev. rewrite Ev.
    set (yt := repeat zero (Z.to_nat L) ++ skipn _ _). assert (Lt : zlen yt = L + zlen gy).
    { unfold yt. rewrite zlen_app, LZ. f_equal. rewrite skipn_app, repeat_length, Nat.sub_diag, skipn_all2 by (rewrite repeat_length; lia). reflexivity. }
    unfold wr at 1. cbn [Z.leb Z.compare andb]. destruct (Z.ltb_spec 0 (zlen yt)); [|lia]. cbn [bind Z.to_nat firstn app].
    rewrite loadu_ok; [|lia|lia|rewrite zlen_cons; unfold zlen; lia]. cbn [bind]. change (Z.to_nat 0) with O. change (Z.to_nat (0 + 1)) with 1%nat. cbn [skipn firstn].
    unfold storeu, wr. destruct (Z.ltb_spec 0 (zlen y0)); [|lia]. change (zlen [range_sum 0 n]) with 1. destruct (Z.leb_spec (0 + 1) (zlen y0)); [|lia]. reflexivity.
  - assert (exists i s, (if 4 * L <? n then do r <- loop4 f L n ld (S (Z.to_nat n)) 0 y0 (u_yinit f, u_yinit f, u_yinit f, u_yinit f);
               match r with inl y => Some (inl y) | inr (i, y, (yy, yy1, yy2, yy3)) => Some (inr (i, y, u_reduce3 f yy3 yy2 yy1 yy)) end
             else Some (inr (0, y0, u_yinit f))) = Some (inr (i, y0, s)) /\ 0 <= i <= n /\ V1 i s) as (i & s & -> & Hi & HV).
    { pose proof yinit_L as YL. pose proof yinit_total as YT. destruct (4 * L <? n).
      - destruct (red_loop4 (S (Z.to_nat n)) 0 y0 (u_yinit f, u_yinit f, u_yinit f, u_yinit f)) as (i & s & -> & Hi & HV); [lia|lia| |].
        { unfold V4. rewrite YT, range_nil, !op_e. auto. }
        cbn [bind]. destruct s as (((s0 & s1) & s2) & s3). exists i. eexists. split; [reflexivity|]. split; [exact Hi|]. cbn [f reduce_unit u_reduce3].
        destruct HV as (L0 & L1 & L2 & L3 & E). unfold zlen in *.
        destruct (vadd_total op e op_comm op_assoc op_e s0 s3) as (K1 & E1); [lia|]. destruct (vadd_total op e op_comm op_assoc op_e s2 s1) as (K2 & E2); [lia|].
        destruct (vadd_total op e op_comm op_assoc op_e (vadd op s0 s3) (vadd op s2 s1)) as (K3 & E3); [lia|]. split; [unfold zlen; lia|]. rewrite E3, E1, E2. exact E.
      - exists 0, (u_yinit f). split; [reflexivity|]. split; [lia|]. split; [exact YL|]. now rewrite YT, range_nil. }
    cbn [bind]. destruct (red_loop1 (S (Z.to_nat n)) i y0 s) as (i1 & v1 & -> & Hi1 & Hr & (LV & EV)); [lia|lia|exact HV|]. cbn [bind].
    destruct (Z.eqb_spec i1 n) as [->|Hne].
    + cbn [bind f reduce_unit u_reduce]. rewrite EV. now destruct (wr y0 0 (range_sum 0 n)).
    + destruct (Hmld (n - i1)) as (xv & E & Gx); [lia..|]. replace (- (n - i1)) with (i1 - n) in E by lia. rewrite E. cbn [bind]. cbn [f reduce_unit u_mask_store u_func u_reduce bind].
      destruct (Gx v1 LV) as (_ & ->). rewrite EV. replace (n - (n - i1)) with i1 by lia. rewrite <- range_split by lia. now destruct (wr y0 0 (range_sum 0 n)).
Qed.
End Reduce.
