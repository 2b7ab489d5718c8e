(** The orders of Traits_Model satisfy Recurse_Spec. *)
From Coq Require Import ZArith Lia Bool Btauto Eqdep_dec List.
From Verif Require Import Word Word_Proofs Sort_Spec Recurse_Model Recurse_Spec Traits_Model.
Local Open Scope Z_scope.

(** Reduction to two integer valuations: [f] of the order, [g] of the networks. *)
Section From.
Context {K : Type} (T : traits K) (f g : K -> Z).
Hypothesis Hlt : forall a b, t_lt T a b = (f a <? f b).
Hypothesis Hltn : forall a b, t_ltn T a b = (g a <? g b).
Hypothesis Hg : forall a b, g a = g b -> a = b.
Hypothesis Hfg : forall a b, f a < f b -> g a < g b.
Hypothesis Hpad : forall x, g x <= g (t_lastv T).
Hypothesis Hfirst : forall a b, (t_first T a b = a \/ t_first T a b = b) /\ f (t_first T a b) <= f a /\ f (t_first T a b) <= f b.
Hypothesis Hlast : forall a b, (t_last T a b = a \/ t_last T a b = b) /\ f a <= f (t_last T a b) /\ f b <= f (t_last T a b).
Hypothesis Hsort2 : forall a b, (t_sort2 T a b = (a, b) \/ t_sort2 T a b = (b, a)) /\ f (fst (t_sort2 T a b)) <= f (snd (t_sort2 T a b)).
Hypothesis Heq : forall a b, t_eq T a b = (f a =? f b).
Hypothesis Hkv : t_kv T = false -> forall a b, f a = f b -> a = b.
Hypothesis Hxor : t_128 T = true -> exists kappa : K -> Z, (forall a b, kappa (t_xor T a b) = Z.lxor (kappa a) (kappa b)) /\ ((forall a, f a = kappa a) \/ (forall a, f a = - kappa a)).
Hypothesis Hfv : forall x, f (t_firstv T) <= f x.
Hypothesis Hprev : forall v, f v <> f (t_firstv T) -> f (t_prev T v) = f v - 1.

Lemma sw_of (h : K -> Z) (lt : K -> K -> bool) : (forall a b, lt a b = (h a <? h b)) -> strict_weak lt.
Proof.
  intros E. split; [|split]; intros *; rewrite ?E, ?Z.ltb_lt, ?Z.ltb_ge; lia.
Qed.
Lemma lxor3 x y z : Z.lxor (Z.lxor (Z.lxor (Z.lxor x y) z) x) y = z /\ Z.lxor (Z.lxor (Z.lxor (Z.lxor x y) z) x) z = y /\ Z.lxor (Z.lxor (Z.lxor (Z.lxor x y) z) y) z = x
  /\ Z.lxor (Z.lxor (Z.lxor (Z.lxor x y) z) y) x = z /\ Z.lxor (Z.lxor (Z.lxor (Z.lxor x y) z) z) x = y /\ Z.lxor (Z.lxor (Z.lxor (Z.lxor x y) z) z) y = x.
Proof. repeat split; apply Z.bits_inj'; intros n Hn; rewrite !Z.lxor_spec; btauto. Qed.

Lemma median_128 a b c : t_128 T = true ->
  let m := t_xor T (t_xor T (t_xor T (t_xor T a b) c) (t_first T (t_first T a b) c)) (t_last T (t_last T a b) c) in
  f m = f a \/ f m = f b \/ f m = f c.
Proof.
  intros H128 m. destruct (Hxor H128) as (kp & Hx & Hk).
  assert (Hm : kp m = kp a \/ kp m = kp b \/ kp m = kp c).
  { subst m. rewrite !Hx.
    destruct (Hfirst a b) as (F1 & F2 & F3). destruct (Hfirst (t_first T a b) c) as (G1 & G2 & G3).
    destruct (Hlast a b) as (L1 & L2 & L3). destruct (Hlast (t_last T a b) c) as (M1 & M2 & M3).
    set (fi := t_first T (t_first T a b) c) in *. set (la := t_last T (t_last T a b) c) in *.
    assert (Fm : fi = a \/ fi = b \/ fi = c) by (destruct G1 as [G1|G1]; destruct F1 as [F1|F1]; rewrite G1; auto).
    assert (Lm : la = a \/ la = b \/ la = c) by (destruct M1 as [M1|M1]; destruct L1 as [L1|L1]; rewrite M1; auto).
    assert (Hsame : fi = la -> kp a = kp b /\ kp b = kp c).
    { intros E. rewrite E in *. destruct Hk as [Hk|Hk]; rewrite !Hk in *; lia. }
    pose proof (lxor3 (kp a) (kp b) (kp c)) as (X1 & X2 & X3 & X4 & X5 & X6).
    clearbody fi la. clear - Fm Lm Hsame X1 X2 X3 X4 X5 X6.
    assert (Hs : forall x, Z.lxor (Z.lxor (Z.lxor (Z.lxor x x) x) x) x = x) by (intros x; apply Z.bits_inj'; intros n Hn; rewrite !Z.lxor_spec; btauto).
    destruct Fm as [Fm|[Fm|Fm]], Lm as [Lm|[Lm|Lm]]; rewrite Fm, Lm in Hsame |- *; auto;
    destruct (Hsame eq_refl) as [E1 E2]; left; rewrite <- E2, <- E1; apply Hs. }
  destruct Hk as [Hk|Hk]; rewrite !Hk; lia.
Qed.

Lemma traits_from : traits_ok T.
Proof.
  constructor.
  - exact (sw_of f _ Hlt).
  - split; [exact (sw_of g _ Hltn)|]. intros a b. rewrite !Hltn, !Z.ltb_ge. intros; apply Hg; lia.
  - intros a b. rewrite Hlt, Hltn, !Z.ltb_lt. apply Hfg.
  - intros x. rewrite Hltn, Z.ltb_ge. apply Hpad.
  - intros a b. rewrite !Hlt, !Z.ltb_ge. apply Hfirst.
  - intros a b. rewrite !Hlt, !Z.ltb_ge. apply Hlast.
  - intros a b. rewrite !Hlt, !Z.ltb_ge. apply Hsort2.
  - intros a b. rewrite Heq, !Hlt. apply eq_true_iff_eq. rewrite andb_true_iff, !negb_true_iff, !Z.ltb_ge, Z.eqb_eq. lia.
  - intros Hf. split; [exact (sw_of f _ Hlt)|]. intros a b. rewrite !Hlt, !Z.ltb_ge. intros; apply Hkv; auto; lia.
  - intros a b c. rewrite !Heq, !Z.eqb_eq. unfold median_of_3. pose proof (median_128 a b c) as M. destruct (t_128 T).
    + exact (M eq_refl).
    + destruct (Hsort2 a c) as ([S|S] & _); rewrite S;
      match goal with |- context [t_first T (t_last T ?x b) ?y] => destruct (Hlast x b) as ([L|L] & _); rewrite L; match goal with |- context [t_first T ?u ?v] => destruct (Hfirst u v) as ([F|F] & _); rewrite F end end; auto.
  - intros x. rewrite Hlt, Z.ltb_ge. apply Hfv.
  - intros v x. rewrite Heq, Z.eqb_neq, !Hlt. intros H. rewrite (Hprev v H). apply eq_true_iff_eq. rewrite negb_true_iff, Z.ltb_lt, Z.ltb_ge. lia.
Qed.
End From.

(** compare-and-select *)
Section Sel.
Context {A : Type} (v : A -> Z).
Lemma v_min_ok a b : (v_min v a b = a \/ v_min v a b = b) /\ v (v_min v a b) <= v a /\ v (v_min v a b) <= v b.
Proof. unfold v_min. destruct (Z.ltb_spec (v a) (v b)); auto with zarith. Qed.
Lemma v_max_ok a b : (v_max v a b = a \/ v_max v a b = b) /\ v a <= v (v_max v a b) /\ v b <= v (v_max v a b).
Proof. unfold v_max. destruct (Z.ltb_spec (v b) (v a)); auto with zarith. Qed.
Lemma first_ok (desc : bool) a b : let m := (if desc then v_max v else v_min v) a b in (m = a \/ m = b) /\ ord desc v m <= ord desc v a /\ ord desc v m <= ord desc v b.
Proof. destruct desc; cbn; [pose proof (v_max_ok a b)|pose proof (v_min_ok a b)]; intuition lia. Qed.
Lemma last_ok (desc : bool) a b : let m := (if desc then v_min v else v_max v) a b in (m = a \/ m = b) /\ ord desc v a <= ord desc v m /\ ord desc v b <= ord desc v m.
Proof. destruct desc; cbn; [pose proof (v_min_ok a b)|pose proof (v_max_ok a b)]; intuition lia. Qed.
(** Min and Max of the same valuation pick different operands *)
Lemma sort2_ok (via desc : bool) (Hinj : forall a b, v a = v b -> a = b) (o : A -> Z) (Ho : forall a b, ord desc v a <= ord desc v b -> o a <= o b) a b :
  let s := sort2 via (v_lt o) (if desc then v_max v else v_min v) (if desc then v_min v else v_max v) a b in
  (s = (a, b) \/ s = (b, a)) /\ o (fst s) <= o (snd s).
Proof.
  cbn. unfold sort2. destruct via.
  - unfold v_lt. destruct (Z.ltb_spec (o a) (o b)); cbn; auto with zarith.
  - destruct desc; unfold v_min, v_max; (destruct (Z.ltb_spec (v a) (v b)); destruct (Z.ltb_spec (v b) (v a)); cbn; try lia;
    [ | | assert (a = b) by (apply Hinj; lia); subst ]; split; auto; apply Ho; cbn; lia).
Qed.
End Sel.

Lemma sig_bool_eq {A} (P : A -> bool) (x y : { a | P a = true }) : proj1_sig x = proj1_sig y -> x = y.
Proof.
  destruct x as [x Hx], y as [y Hy]. cbn. intros ->. f_equal. apply UIP_dec, bool_dec.
Qed.
Lemma bits_inj w (x y : word w) : bits x = bits y -> x = y.
Proof. apply sig_bool_eq. Qed.
Lemma bits_range w (x : word w) : 0 <= bits x < 2 ^ Zpos w.
Proof. destruct x as [x H]. cbn. rewrite andb_true_iff, Z.leb_le, Z.ltb_lt in H. exact H. Qed.
Lemma ord_inj {A} desc (v : A -> Z) : (forall a b, v a = v b -> a = b) -> forall a b, ord desc v a = ord desc v b -> a = b.
Proof. intros H a b. unfold ord. destruct desc; intros; apply H; lia. Qed.

Lemma pow_half w : 2 ^ Zpos w = 2 * 2 ^ (Zpos w - 1).
Proof. rewrite <- Z.pow_succ_r by lia. f_equal. lia. Qed.
Lemma ival_inj signed w (x y : word w) : ival signed x = ival signed y -> x = y.
Proof.
  intros H. apply bits_inj. pose proof (bits_range w x). pose proof (bits_range w y). unfold ival in H. destruct signed; [|exact H].
  rewrite <- (Z.mod_small (bits x) (2 ^ Zpos w)), <- (Z.mod_small (bits y) (2 ^ Zpos w)) by lia.
  rewrite <- (swrap_mod (Zpos w) (bits x)), <- (swrap_mod (Zpos w) (bits y)) by lia. now rewrite H.
Qed.
Definition imin (signed : bool) (w : positive) : Z := if signed then - 2 ^ (Zpos w - 1) else 0.
Definition imax (signed : bool) (w : positive) : Z := if signed then 2 ^ (Zpos w - 1) - 1 else 2 ^ Zpos w - 1.
Lemma ival_range signed w (x : word w) : imin signed w <= ival signed x <= imax signed w.
Proof.
  unfold imin, imax, ival. destruct signed; [pose proof (swrap_range (Zpos w) (bits x) ltac:(lia)) as H; unfold in_s in H|pose proof (bits_range w x)]; lia.
Qed.
Lemma ival_word_of signed w z : imin signed w <= z <= imax signed w -> ival signed (word_of w z) = z.
Proof.
  unfold imin, imax, ival, word_of, bits; cbn [proj1_sig]. intros H. destruct signed.
  - rewrite swrap_wrap by lia. apply swrap_small; [lia|]. unfold in_s. lia.
  - apply wrap_small. lia.
Qed.
Lemma ival_lowest signed w : ival signed (lowest signed w) = imin signed w.
Proof. apply ival_word_of. pose proof (pow_half w). pose proof (pow2_gt0 (Zpos w - 1) ltac:(lia)). unfold imin, imax. destruct signed; lia. Qed.
Lemma ival_highest signed w : ival signed (highest signed w) = imax signed w.
Proof. apply ival_word_of. pose proof (pow_half w). pose proof (pow2_gt0 (Zpos w - 1) ltac:(lia)). unfold imin, imax. destruct signed; lia. Qed.
Lemma ival_step signed w (x : word w) d : imin signed w <= ival signed x + d <= imax signed w -> ival signed (word_of w (bits x + d)) = ival signed x + d.
Proof.
  intros H. unfold ival, word_of, bits in *; cbn [proj1_sig]. destruct signed.
  - rewrite swrap_wrap by lia. apply swrap_unique; [lia|unfold in_s, imin, imax in *; lia|].
    rewrite Zplus_mod. rewrite <- (swrap_mod (Zpos w) (proj1_sig x)) by lia. now rewrite <- Zplus_mod.
  - apply wrap_small. unfold imin, imax in H. lia.
Qed.

Lemma int_traits_ok signed w desc via : traits_ok (int_traits signed w desc via).
Proof.
  apply (traits_from _ (ord desc (ival signed)) (ord desc (ival signed))).
  - reflexivity.
  - reflexivity.
  - apply ord_inj, ival_inj.
  - auto.
  - intros x. pose proof (ival_range signed w x). cbn. unfold ord. destruct desc; rewrite ?ival_lowest, ?ival_highest; lia.
  - apply first_ok.
  - apply last_ok.
  - intros a b. apply (sort2_ok (ival signed) via desc (ival_inj signed w)). auto.
  - intros a b. cbn. apply eq_true_iff_eq. rewrite !Z.eqb_eq. split; intros H.
    + apply bits_inj in H. now subst.
    + f_equal. revert H. apply ord_inj, ival_inj.
  - intros _. apply ord_inj, ival_inj.
  - discriminate.
  - intros x. pose proof (ival_range signed w x). cbn. unfold ord. destruct desc; rewrite ?ival_lowest, ?ival_highest; lia.
  - intros v. pose proof (ival_range signed w v). cbn. unfold ord. destruct desc; rewrite ?ival_lowest, ?ival_highest; intros Hv.
    + rewrite ival_step; lia.
    + change (bits v - 1) with (bits v + -1). rewrite ival_step; lia.
Qed.

Lemma key64_range (x : word 64) : 0 <= key64 x < 2 ^ 32.
Proof. unfold key64. rewrite shiftr_div by lia. pose proof (bits_range 64 x). split; [apply Z.div_pos; lia|apply Z.div_lt_upper_bound; lia]. Qed.
Lemma key64_mono (a b : word 64) : bits a <= bits b -> key64 a <= key64 b.
Proof. intros. unfold key64. rewrite !shiftr_div by lia. apply Z.div_le_mono; lia. Qed.
Lemma key64_step (x : word 64) d : 0 <= key64 x + d < 2 ^ 32 -> key64 (word_of 64 (bits x + d * 2 ^ 32)) = key64 x + d.
Proof.
  intros H. unfold key64 in *. rewrite !shiftr_div in * by lia. unfold word_of, bits in *. cbn [proj1_sig]. rewrite (wrap_small 64).
  - apply Z.div_add. lia.
  - pose proof (Z.div_mod (proj1_sig x) (2 ^ 32) ltac:(lia)). pose proof (Z.mod_pos_bound (proj1_sig x) (2 ^ 32) ltac:(lia)). lia.
Qed.
Lemma kv64_traits_ok desc via : traits_ok (kv64_traits desc via).
Proof.
  assert (Hm : forall a b : word 64, ord desc (ival false) a <= ord desc (ival false) b -> ord desc key64 a <= ord desc key64 b).
  { intros a b. unfold ord, ival. destruct desc; intros; [apply Z.opp_le_mono; rewrite !Z.opp_involutive|]; apply key64_mono; lia. }
  apply (traits_from _ (ord desc key64) (ord desc (ival false))).
  - reflexivity.
  - reflexivity.
  - apply ord_inj, ival_inj.
  - intros a b H. destruct (Z.lt_ge_cases (ord desc (ival false) a) (ord desc (ival false) b)) as [|G]; auto. apply Hm in G. lia.
  - intros x. pose proof (ival_range false 64 x). cbn -[Z.pow]. unfold ord. destruct desc; rewrite ?ival_lowest, ?ival_highest; lia.
  - intros a b. destruct (first_ok (ival false) desc a b) as (X & Y & Z). cbn. split; [exact X|]. split; apply Hm; auto.
  - intros a b. destruct (last_ok (ival false) desc a b) as (X & Y & Z). cbn. split; [exact X|]. split; apply Hm; auto.
  - intros a b. apply (sort2_ok (ival false) via desc (ival_inj false 64)). exact Hm.
  - intros a b. change (t_eq (kv64_traits desc via) a b) with (key64 a =? key64 b). apply eq_true_iff_eq. unfold ord. destruct desc; rewrite !Z.eqb_eq; lia.
  - discriminate.
  - discriminate.
  - intros x. unfold ord. destruct desc; [apply Z.opp_le_mono; rewrite !Z.opp_involutive|]; apply key64_mono; pose proof (ival_range false 64 x) as R;
      [rewrite <- ival_highest in R|rewrite <- ival_lowest in R]; unfold ival in R; cbn [t_firstv kv64_traits]; lia.
  - intros v. pose proof (key64_range v) as R.
    assert (E0 : key64 (lowest false 64) = 0) by (vm_compute; reflexivity).
    assert (E1 : key64 (highest false 64) = 2 ^ 32 - 1) by (vm_compute; reflexivity).
    unfold ord. destruct desc; cbn [t_prev t_firstv kv64_traits]; rewrite ?E0, ?E1; intros Hv.
    + change (bits v + 2 ^ 32) with (bits v + 1 * 2 ^ 32). rewrite key64_step; lia.
    + change (bits v - 2 ^ 32) with (bits v + -1 * 2 ^ 32). rewrite key64_step; lia.
Qed.

(** 128-bit keys *)
Lemma split128 x : bits x = hi128 x * 2 ^ 64 + lo128 x /\ 0 <= lo128 x < 2 ^ 64 /\ 0 <= hi128 x < 2 ^ 64.
Proof.
  unfold hi128, lo128. rewrite shiftr_div by lia. pose proof (bits_range 128 x).
  pose proof (Z.div_mod (bits x) (2 ^ 64) ltac:(lia)). pose proof (Z.mod_pos_bound (bits x) (2 ^ 64) ltac:(lia)).
  split; [lia|]. split; [lia|]. split; [apply Z.div_pos; lia|apply Z.div_lt_upper_bound; lia].
Qed.
Lemma mk128_bits lo hi : bits (mk128 lo hi) = wrap 64 hi * 2 ^ 64 + wrap 64 lo.
Proof.
  unfold mk128, word_of, bits. cbn [proj1_sig]. rewrite Z.shiftl_mul_pow2 by lia. pose proof (wrap_range 64 lo ltac:(lia)). pose proof (wrap_range 64 hi ltac:(lia)).
  apply (wrap_small 128). change (2 ^ 128) with (2 ^ 64 * 2 ^ 64). nia.
Qed.
Lemma lo_mk128 lo hi : lo128 (mk128 lo hi) = wrap 64 lo.
Proof. unfold lo128. rewrite mk128_bits, Z.add_comm, Z_mod_plus_full. apply Z.mod_small, wrap_range. lia. Qed.
Lemma hi_mk128 lo hi : hi128 (mk128 lo hi) = wrap 64 hi.
Proof. unfold hi128. rewrite mk128_bits, shiftr_div by lia. rewrite Z.add_comm, Z.div_add by lia. rewrite Z.div_small by (apply wrap_range; lia). lia. Qed.
Lemma lt128_bits a b : lt128 a b = (bits a <? bits b).
Proof.
  unfold lt128. pose proof (split128 a) as (Ea & ? & ?). pose proof (split128 b) as (Eb & ? & ?). rewrite Ea, Eb.
  apply eq_true_iff_eq. destruct (Z.eqb_spec (hi128 a) (hi128 b)); rewrite !Z.ltb_lt; nia.
Qed.
Lemma wrap64_lxor x y : 0 <= x < 2 ^ 64 -> 0 <= y < 2 ^ 64 -> wrap 64 (Z.lxor x y) = Z.lxor x y.
Proof.
  intros Hx Hy. apply Z.bits_inj'. intros n Hn. rewrite testbit_wrap by lia.
  destruct (Z.ltb_spec n 64); cbn; [reflexivity|]. rewrite Z.lxor_spec, !(testbit_small _ 64) by lia. reflexivity.
Qed.
Lemma hi_xor128 a b : hi128 (mk128 (Z.lxor (lo128 a) (lo128 b)) (Z.lxor (hi128 a) (hi128 b))) = Z.lxor (hi128 a) (hi128 b).
Proof. rewrite hi_mk128. pose proof (split128 a). pose proof (split128 b). apply wrap64_lxor; lia. Qed.
Lemma lo_xor128 a b : lo128 (mk128 (Z.lxor (lo128 a) (lo128 b)) (Z.lxor (hi128 a) (hi128 b))) = Z.lxor (lo128 a) (lo128 b).
Proof. rewrite lo_mk128. pose proof (split128 a). pose proof (split128 b). apply wrap64_lxor; lia. Qed.
Lemma ext128 x (a : word 128) lo hi : 0 <= lo < 2 ^ 64 -> 0 <= hi -> x = hi * 2 ^ 64 + lo -> lo128 a = lo -> hi128 a = hi -> bits a = x.
Proof. intros. pose proof (split128 a) as (E & _). rewrite E. congruence. Qed.
Lemma bits_xor128 a b : bits (mk128 (Z.lxor (lo128 a) (lo128 b)) (Z.lxor (hi128 a) (hi128 b))) = Z.lxor (bits a) (bits b).
Proof.
  pose proof (split128 (mk128 (Z.lxor (lo128 a) (lo128 b)) (Z.lxor (hi128 a) (hi128 b)))) as (E & R & _). rewrite E.
  rewrite hi_xor128, lo_xor128 in *.
  unfold hi128, lo128 in *. rewrite <- Z.shiftr_lxor.
  assert (E2 : Z.lxor (bits a mod 2 ^ 64) (bits b mod 2 ^ 64) = Z.lxor (bits a) (bits b) mod 2 ^ 64).
  { rewrite <- !Z.land_ones by lia. apply Z.bits_inj'. intros n Hn. rewrite !Z.lxor_spec, !Z.land_spec, Z.lxor_spec. btauto. }
  rewrite E2, shiftr_div by lia. pose proof (Z.div_mod (Z.lxor (bits a) (bits b)) (2 ^ 64) ltac:(lia)). lia.
Qed.

(** First, Last and Sort2 of an order [lt a b = f a < f b] *)
Section Sel128.
Variables (lt : word 128 -> word 128 -> bool) (f : word 128 -> Z).
Hypothesis Hlt : forall a b, lt a b = (f a <? f b).
Lemma first128_ok a b : (first128 lt a b = a \/ first128 lt a b = b) /\ f (first128 lt a b) <= f a /\ f (first128 lt a b) <= f b.
Proof. unfold first128. rewrite Hlt. destruct (Z.ltb_spec (f a) (f b)); auto with zarith. Qed.
Lemma last128_ok a b : (last128 lt a b = a \/ last128 lt a b = b) /\ f a <= f (last128 lt a b) /\ f b <= f (last128 lt a b).
Proof. unfold last128. rewrite Hlt. destruct (Z.ltb_spec (f b) (f a)); auto with zarith. Qed.
Lemma flip_ok desc a b : flip desc lt a b = (ord desc f a <? ord desc f b).
Proof. unfold flip, ord. destruct desc; rewrite Hlt; apply eq_true_iff_eq; rewrite !Z.ltb_lt; lia. Qed.
Lemma first128_desc (desc : bool) a b : let m := (if desc then last128 lt else first128 lt) a b in (m = a \/ m = b) /\ ord desc f m <= ord desc f a /\ ord desc f m <= ord desc f b.
Proof. destruct desc; cbn; [pose proof (last128_ok a b)|pose proof (first128_ok a b)]; intuition lia. Qed.
Lemma last128_desc (desc : bool) a b : let m := (if desc then first128 lt else last128 lt) a b in (m = a \/ m = b) /\ ord desc f a <= ord desc f m /\ ord desc f b <= ord desc f m.
Proof. destruct desc; cbn; [pose proof (first128_ok a b)|pose proof (last128_ok a b)]; intuition lia. Qed.
Lemma sort2_128 desc x y a b : let s := sort2 true (flip desc lt) x y a b in (s = (a, b) \/ s = (b, a)) /\ ord desc f (fst s) <= ord desc f (snd s).
Proof. cbn. rewrite flip_ok. destruct (Z.ltb_spec (ord desc f a) (ord desc f b)); cbn; auto with zarith. Qed.
End Sel128.

Lemma bits_zeros128 : bits zeros128 = 0. Proof. vm_compute; reflexivity. Qed.
Lemma bits_ones128 : bits ones128 = 2 ^ 128 - 1. Proof. vm_compute; reflexivity. Qed.

Lemma prev128_ok (desc : bool) v : ord desc bits v <> ord desc bits (if desc then ones128 else zeros128) -> ord desc bits (prev128 desc v) = ord desc bits v - 1.
Proof.
  pose proof (split128 v) as (E & L & H). unfold prev128, ord. destruct desc; rewrite ?bits_zeros128, ?bits_ones128; intros Hv; rewrite mk128_bits, E in *.
  - rewrite wrap_wrap by lia. destruct (Z.eq_dec (lo128 v) (2 ^ 64 - 1)) as [El|Nl].
    + assert (W : wrap 64 (lo128 v + 1) = 0) by (rewrite El; reflexivity). rewrite W.
      destruct (Z.ltb_spec 0 (lo128 v)); [|lia]. assert (hi128 v <> 2 ^ 64 - 1) by lia. rewrite (wrap_small 64 (hi128 v + 1)) by lia. lia.
    + rewrite (wrap_small 64 (lo128 v + 1)) by lia. destruct (Z.ltb_spec (lo128 v + 1) (lo128 v)); [lia|]. rewrite (wrap_small 64 (hi128 v + 0)) by lia. lia.
  - destruct (Z.eqb_spec (lo128 v) 0) as [El|Nl].
    + rewrite El. assert (W : wrap 64 (0 - 1) = 2 ^ 64 - 1) by reflexivity. rewrite W. rewrite (wrap_small 64 (hi128 v - 1)) by lia. lia.
    + rewrite (wrap_small 64 (lo128 v - 1)), (wrap_small 64 (hi128 v - 0)) by lia. lia.
Qed.

Lemma u128_traits_ok desc : traits_ok (u128_traits desc).
Proof.
  apply (traits_from _ (ord desc bits) (ord desc bits)).
  - apply (flip_ok lt128 bits lt128_bits).
  - apply (flip_ok lt128 bits lt128_bits).
  - apply ord_inj, bits_inj.
  - auto.
  - intros x. pose proof (bits_range 128 x). unfold ord. destruct desc; cbn [t_lastv t_firstv u128_traits kv128_traits]; rewrite ?bits_zeros128, ?bits_ones128; lia.
  - intros a b. apply (first128_desc lt128 bits lt128_bits).
  - intros a b. apply (last128_desc lt128 bits lt128_bits).
  - intros a b. apply (sort2_128 lt128 bits lt128_bits).
  - intros a b. cbn [t_eq u128_traits]. apply eq_true_iff_eq. rewrite andb_true_iff, !Z.eqb_eq. split.
    + intros [E1 E2]. f_equal. apply bits_inj. pose proof (split128 a) as (Ea & _). pose proof (split128 b) as (Eb & _). rewrite Ea, Eb. congruence.
    + intros H. apply (ord_inj desc bits (bits_inj 128)) in H. now subst.
  - intros _. apply ord_inj, bits_inj.
  - intros _. exists bits. split; [exact bits_xor128|]. destruct desc; cbn; auto.
  - intros x. pose proof (bits_range 128 x). unfold ord. destruct desc; cbn [t_lastv t_firstv u128_traits kv128_traits]; rewrite ?bits_zeros128, ?bits_ones128; lia.
  - apply prev128_ok.
Qed.

Lemma hi_zeros128 : hi128 zeros128 = 0. Proof. vm_compute; reflexivity. Qed.
Lemma hi_ones128 : hi128 ones128 = 2 ^ 64 - 1. Proof. vm_compute; reflexivity. Qed.
Lemma kv128_traits_ok desc : traits_ok (kv128_traits desc).
Proof.
  assert (Hu : forall a b, lt128_upper a b = (hi128 a <? hi128 b)) by reflexivity.
  apply (traits_from _ (ord desc hi128) (ord desc bits)).
  - apply (flip_ok lt128_upper hi128 Hu).
  - apply (flip_ok lt128 bits lt128_bits).
  - apply ord_inj, bits_inj.
  - intros a b. pose proof (split128 a) as (Ea & ? & ?). pose proof (split128 b) as (Eb & ? & ?). unfold ord. rewrite Ea, Eb. destruct desc; nia.
  - intros x. pose proof (bits_range 128 x). unfold ord. destruct desc; cbn [t_lastv t_firstv u128_traits kv128_traits]; rewrite ?bits_zeros128, ?bits_ones128; lia.
  - intros a b. apply (first128_desc lt128_upper hi128 Hu).
  - intros a b. apply (last128_desc lt128_upper hi128 Hu).
  - intros a b. apply (sort2_128 lt128_upper hi128 Hu).
  - intros a b. change (t_eq (kv128_traits desc) a b) with (hi128 a =? hi128 b). apply eq_true_iff_eq. unfold ord. destruct desc; rewrite !Z.eqb_eq; lia.
  - discriminate.
  - intros _. exists hi128. split; [exact hi_xor128|]. destruct desc; cbn; auto.
  - intros x. pose proof (split128 x). unfold ord. destruct desc; cbn [t_lastv t_firstv u128_traits kv128_traits]; rewrite ?hi_zeros128, ?hi_ones128; lia.
  - intros v. pose proof (split128 v). unfold ord. destruct desc; cbn [t_prev t_lastv t_firstv u128_traits kv128_traits]; rewrite hi_mk128, ?hi_zeros128, ?hi_ones128; intros Hv;
    [rewrite (wrap_small 64 (hi128 v + 1))|rewrite (wrap_small 64 (hi128 v - 1))]; lia.
Qed.

(** floating point *)
Section FloatProofs.
Variables (e p : positive).
Notation fsign := (fsign e p).
Notation finf := (finf e p).
Lemma fsign_pos : 0 < fsign. Proof. unfold fsign. apply Z.pow_pos_nonneg; lia. Qed.
Lemma fw_pow : 2 ^ Zpos (fw e p) = 2 * fsign.
Proof. unfold fsign, fw. rewrite <- Z.pow_succ_r by lia. f_equal. lia. Qed.
Lemma fneg_small z : 0 <= z < fsign -> fneg e p z = z + fsign.
Proof.
  intros H. unfold fneg. symmetry. apply Z.add_nocarry_lxor. apply Z.bits_inj'. intros n Hn. rewrite Z.land_spec, Z.bits_0.
  unfold fsign in *. destruct (Z.eq_dec n (Zpos e + Zpos p)) as [->|Ne].
  - rewrite (testbit_small z (Zpos e + Zpos p)) by lia. reflexivity.
  - rewrite Z.pow2_bits_false by lia. apply andb_false_r.
Qed.
(** patterns of keys: [0, finf] and fsign + [1, finf] *)
Lemma is_key_iff z : is_key e p z = true <-> 0 <= z <= finf \/ fsign + 1 <= z <= fsign + finf.
Proof.
  pose proof (finf_lt e p). pose proof fsign_pos. unfold is_key, is_nan, fabs. rewrite !andb_true_iff, !negb_true_iff, Z.leb_le, Z.ltb_lt, Z.ltb_ge, Z.eqb_neq.
  split.
  - intros (((A & B) & C) & D). destruct (Z.lt_ge_cases z fsign).
    + rewrite Z.mod_small in C by lia. lia.
    + replace (z mod fsign) with (z - fsign) in C by (apply (Z.mod_unique _ _ 1); lia). lia.
  - intros [A|A].
    + rewrite Z.mod_small by lia. lia.
    + replace (z mod fsign) with (z - fsign) by (apply (Z.mod_unique _ _ 1); lia). lia.
Qed.
Lemma fv_range x : - finf <= fv e p x <= finf.
Proof.
  unfold fv, fval. destruct x as [z Hz]. cbn [proj1_sig]. apply is_key_iff in Hz. pose proof (finf_lt e p). destruct (Z.ltb_spec z fsign); lia.
Qed.
Lemma fv_inj a b : fv e p a = fv e p b -> a = b.
Proof.
  intros H. apply sig_bool_eq. unfold fv, fval in H. destruct a as [a Ha], b as [b Hb]. cbn [proj1_sig] in *. apply is_key_iff in Ha, Hb. pose proof (finf_lt e p).
  destruct (Z.ltb_spec a fsign), (Z.ltb_spec b fsign); lia.
Qed.
Lemma fv_fk z : is_key e p z = true -> fv e p (fk e p z) = fval e p z.
Proof. intros H. unfold fv, fk, fnorm. cbn [proj1_sig]. now rewrite H. Qed.
Lemma fval_pos z : 0 <= z < fsign -> fval e p z = z.
Proof. intros. unfold fval. destruct (Z.ltb_spec z fsign); lia. Qed.
Lemma fval_neg z : fsign <= z -> fval e p z = fsign - z.
Proof. intros. unfold fval. destruct (Z.ltb_spec z fsign); lia. Qed.
Lemma fv_inf : fv e p (fk e p finf) = finf.
Proof. pose proof (finf_lt e p). rewrite fv_fk by (apply is_key_iff; lia). apply fval_pos. lia. Qed.
Hypothesis Hfinf : 1 <= finf.
Lemma fv_ninf : fv e p (fk e p (fneg e p finf)) = - finf.
Proof. pose proof (finf_lt e p). rewrite fneg_small by lia. rewrite fv_fk by (apply is_key_iff; lia). rewrite fval_neg by lia. lia. Qed.
Lemma fabs_pos z : 0 <= z < fsign -> fabs e p z = z.
Proof. apply Z.mod_small. Qed.
Lemma fabs_neg z : fsign <= z < 2 * fsign -> fabs e p z = z - fsign.
Proof. intros. symmetry. apply (Z.mod_unique _ _ 1); lia. Qed.
Lemma wrap_dec z : 1 <= z < fsign -> wrap (Zpos (fw e p)) (z + (2 ^ Zpos (fw e p) - 1)) = z - 1.
Proof. intros. rewrite fw_pow. replace (z + (2 * fsign - 1)) with (z - 1 + 1 * (2 * fsign)) by lia. rewrite <- fw_pow, wrap_add_mult by lia. apply wrap_small. rewrite fw_pow. lia. Qed.
Lemma wrap_inc z : 0 <= z < fsign -> wrap (Zpos (fw e p)) (z + 1) = z + 1.
Proof. intros. apply wrap_small. rewrite fw_pow. lia. Qed.

Lemma larger_ok x : fv e p x <> finf -> fv e p (fk e p (larger_sort_value e p (proj1_sig x))) = fv e p x + 1.
Proof.
  pose proof (finf_lt e p) as HF. destruct x as [z Hz]. unfold fv at 1 3. cbn [proj1_sig]. pose proof (proj1 (is_key_iff z) Hz) as R. intros Hne.
  unfold larger_sort_value. destruct R as [R|R].
  - rewrite fval_pos in * by lia. destruct (Z.leb_spec z fsign); [|lia]. rewrite fabs_pos, wrap_inc by lia.
    unfold is_finite. rewrite fabs_pos by lia. destruct (Z.ltb_spec (z + 1) finf).
    + rewrite fv_fk by (apply is_key_iff; lia). apply fval_pos; lia.
    + rewrite fv_inf. lia.
  - rewrite fval_neg in * by lia. destruct (Z.leb_spec z fsign); [lia|]. rewrite fabs_neg, wrap_dec by lia.
    unfold is_finite. rewrite fabs_pos by lia. destruct (Z.ltb_spec (z - fsign - 1) finf); [|lia].
    rewrite fneg_small by lia. destruct (Z.eq_dec z (fsign + 1)) as [->|].
    + replace (fsign + 1 - fsign - 1 + fsign) with fsign by lia. unfold fv, fk, fnorm. cbn [proj1_sig].
      replace (is_key e p fsign) with false; [rewrite fval_pos; lia|]. symmetry. apply not_true_iff_false. rewrite is_key_iff. lia.
    + rewrite fv_fk by (apply is_key_iff; lia). rewrite fval_neg by lia. lia.
Qed.
Lemma smaller_ok x : fv e p x <> - finf -> fv e p (fk e p (smaller_sort_value e p (proj1_sig x))) = fv e p x - 1.
Proof.
  pose proof (finf_lt e p) as HF. destruct x as [z Hz]. unfold fv at 1 3. cbn [proj1_sig]. pose proof (proj1 (is_key_iff z) Hz) as R. intros Hne.
  unfold smaller_sort_value. destruct R as [R|R].
  - rewrite !fval_pos in * by lia. destruct (Z.ltb_spec 0 z).
    + rewrite fabs_pos, wrap_dec by lia. unfold is_finite. rewrite fabs_pos by lia. destruct (Z.ltb_spec (z - 1) finf); [|lia].
      rewrite fv_fk by (apply is_key_iff; lia). apply fval_pos; lia.
    + assert (z = 0) by lia. subst z. rewrite fabs_pos, wrap_inc by lia. unfold is_finite. rewrite fabs_pos by lia.
      destruct (Z.ltb_spec (0 + 1) finf); rewrite fneg_small by lia; rewrite fv_fk by (apply is_key_iff; lia); rewrite fval_neg by lia; lia.
  - rewrite !fval_neg in * by lia. destruct (Z.ltb_spec 0 (fsign - z)); [lia|]. rewrite fabs_neg, wrap_inc by lia.
    unfold is_finite. rewrite fabs_pos by lia. destruct (Z.ltb_spec (z - fsign + 1) finf); rewrite fneg_small by lia; rewrite fv_fk by (apply is_key_iff; lia); rewrite fval_neg by lia; lia.
Qed.

Lemma float_traits_ok desc via : traits_ok (float_traits e p desc via).
Proof.
  apply (traits_from _ (ord desc (fv e p)) (ord desc (fv e p))).
  - reflexivity.
  - reflexivity.
  - apply ord_inj, fv_inj.
  - auto.
  - intros x. pose proof (fv_range x). cbn [t_lastv t_firstv float_traits]. unfold ord. destruct desc; rewrite ?fv_inf, ?fv_ninf; lia.
  - apply first_ok.
  - apply last_ok.
  - intros a b. apply (sort2_ok (fv e p) via desc fv_inj). auto.
  - intros a b. change (t_eq (float_traits e p desc via) a b) with (fv e p a =? fv e p b). apply eq_true_iff_eq. unfold ord. destruct desc; rewrite !Z.eqb_eq; lia.
  - intros _. apply ord_inj, fv_inj.
  - discriminate.
  - intros x. pose proof (fv_range x). cbn [t_lastv t_firstv float_traits]. unfold ord. destruct desc; rewrite ?fv_inf, ?fv_ninf; lia.
  - intros v. cbn [t_prev t_lastv t_firstv float_traits]. unfold ord. destruct desc; rewrite ?fv_inf, ?fv_ninf; intros Hv;
    [rewrite larger_ok|rewrite smaller_ok]; lia.
Qed.
End FloatProofs.
