(** Jumps, period, disjoint streams, seeding, and the vector generators. *)
From Coq Require Import ZArith NArith Znumtheory List Lia Bool.
From Verif Require Import Word Word_Proofs Vec_Model Random_Model Random_Spec GF2_Poly Random_Linear Primes Random_Cert.
Import ListNotations.
Local Open Scope Z_scope.

Lemma wf_next s : wf s -> wf (snd (next s)).
Proof. intros H. rewrite next_Tl by exact H. now apply wf_Tl. Qed.
Lemma wf_iter k s : wf s -> wf (N.iter k Tl s).
Proof. intros H. induction k using N.peano_ind; [exact H|]. rewrite N.iter_succ. now apply wf_Tl. Qed.
Lemma after_Tl k s : wf s -> after k s = N.iter k Tl s.
Proof.
  intros H. unfold after. induction k using N.peano_ind; [reflexivity|]. rewrite !N.iter_succ, IHk.
  apply next_Tl. now apply wf_iter.
Qed.
Lemma wf_after k s : wf s -> wf (after k s).
Proof. intros H. rewrite after_Tl by exact H. now apply wf_iter. Qed.
Lemma after_add a b s : after (a + b) s = after a (after b s).
Proof. apply N.iter_add. Qed.

(** Jump = p(T). *)
Lemma testbit_cond i b : 0 <= b < 64 -> (Z.land i (wrap 64 (Z.shiftl 1 b)) =? 0) = negb (Z.testbit i b).
Proof.
  intros Hb. unfold wrap. rewrite Z.shiftl_1_l, Z.mod_small by (split; [lia|apply Z.pow_lt_mono_r; lia]).
  destruct (Z.testbit i b) eqn:E; cbn [negb].
  - apply Z.eqb_neq. intros X. assert (Y : Z.testbit (Z.land i (2 ^ b)) b = true).
    { rewrite Z.land_spec, E, Z.pow2_bits_true by lia. reflexivity. }
    rewrite X, Z.bits_0 in Y. discriminate.
  - apply Z.eqb_eq. apply Z.bits_inj'. intros n Hn. rewrite Z.land_spec, Z.bits_0, Z.pow2_bits_eqb by lia.
    destruct (Z.eqb_spec b n) as [<-|]; [now rewrite E|apply andb_false_r].
Qed.
Lemma ev_cons b p v : ev (b :: p) v = xor_state (if b then v else zero_st) (ev p (Tl v)).
Proof. reflexivity. Qed.
Lemma xs_0_r a : xor_state a zero_st = a.
Proof. rewrite xs_comm. apply xs_0. Qed.
Lemma jump_inner i : forall l acc s, (forall b, In b l -> 0 <= b < 64) -> wf s ->
  fold_left (jump_bit i) l (acc, s) = (xor_state acc (ev (map (Z.testbit i) l) s), N.iter (N.of_nat (length l)) Tl s).
Proof.
  induction l as [|b l IH]; intros acc s Hl Hs; cbn [fold_left map length].
  - cbn [GF2_Poly.ev N.of_nat N.iter]. now rewrite xs_0_r.
  - unfold jump_bit at 2. rewrite testbit_cond by (apply Hl; now left). rewrite next_Tl by exact Hs.
    rewrite IH by (auto using wf_Tl; intros; apply Hl; now right).
    f_equal.
    + rewrite ev_cons, xs_assoc. f_equal. destruct (Z.testbit i b); cbn [negb]; [reflexivity|]. now rewrite xs_0_r.
    + rewrite Nnat.Nat2N.inj_succ, N.iter_succ_r. reflexivity.
Qed.
Lemma jump_outer L : (forall b, In b L -> 0 <= b < 64) -> forall arr acc s, wf s ->
  fst (fold_left (fun p i => fold_left (jump_bit i) L p) arr (acc, s))
  = xor_state acc (ev (flat_map (fun i => map (Z.testbit i) L) arr) s).
Proof.
  intros HL. induction arr as [|i arr IH]; intros acc s Hs; cbn [fold_left flat_map].
  - cbn [GF2_Poly.ev fst]. now rewrite xs_0_r.
  - rewrite jump_inner by auto.
    rewrite IH by now apply wf_iter.
    rewrite ev_app by auto using xs_comm, xs_assoc, xs_0, xs_self, Tl_add.
    rewrite xs_assoc, map_length. reflexivity.
Qed.
Lemma jump_ev arr s : wf s -> jump arr s = ev (flat_map (bits 64) arr) s.
Proof.
  intros H. unfold jump. change ((0, 0, 0, 0) : st) with zero_st.
  rewrite jump_outer; [|intros b Hb; apply in_map_iff in Hb; destruct Hb as (k & <- & Hk); apply in_seq in Hk; lia|exact H].
  rewrite xs_0. rewrite (flat_map_ext _ (bits 64)); [reflexivity|]. intros i. unfold bits. apply map_map.
Qed.

Lemma jump_ok s : wf s -> jump kJump s = after (2 ^ 128) s.
Proof. intros H. rewrite jump_ev, after_Tl by exact H. destruct r_J as [_ R]. apply R. exact H. Qed.
Lemma long_jump_ok s : wf s -> jump kLongJump s = after (2 ^ 192) s.
Proof. intros H. rewrite jump_ev, after_Tl by exact H. destruct r_L as [_ R]. apply R. exact H. Qed.

(** Period. *)
Definition MN : N := 2 ^ 256 - 1.
Lemma full_turn s : wf s -> N.iter (2 ^ 256) Tl s = Tl s.
Proof.
  intros H. destruct r_M as [_ R]. rewrite <- R by exact H. destruct r_px as [_ R1]. rewrite R1 by exact H. reflexivity.
Qed.
Lemma iter_nat_add (a b : N) s : N.iter (a + b) Tl s = N.iter a Tl (N.iter b Tl s).
Proof. apply N.iter_add. Qed.

(** Tl is injective: it has a left inverse on words. *)
Lemma lxor_cancel a b : Z.lxor (Z.lxor a b) b = a.
Proof. now rewrite Z.lxor_assoc, Z.lxor_nilpotent, Z.lxor_0_r. Qed.
Lemma Tl_inj a b : wf a -> wf b -> Tl a = Tl b -> a = b.
Proof.
  intros Ha Hb E.
  assert (X : xor_state a b = zero_st).
  { pose (d := xor_state a b). assert (Hd : wf d) by now apply wf_xor.
    assert (Td : Tl d = zero_st) by (unfold d; rewrite Tl_add, E; apply xs_self).
    (* Tl d = 0 forces T^k d = 0 for k >= 1; with T^(M/3) + 1 invertible and T^(M/3) d = 0 .. *)
    fold d. assert (K : forall k, N.iter (N.succ k) Tl d = zero_st).
    { intros k. rewrite N.iter_succ_r, Td. induction k using N.peano_ind; [reflexivity|]. rewrite N.iter_succ, IHk. reflexivity. }
    assert (F : ev (mulm I7 px) d = d).
    { rewrite (leqb_eq _ _ c_I7). apply ev_one with (W := wf); lin. exact plow_pos. }
    rewrite ev_mulmod with (W := wf) in F; lin; try exact plow_pos.
    destruct r_px as [_ R1]. rewrite R1 in F by exact Hd. change (N.iter 1 Tl d) with (Tl d) in F. rewrite Td in F.
    rewrite ev_zero in F; lin. }
  rewrite <- (xs_0_r a), <- (xs_self b), xs_assoc, X, xs_0. reflexivity.
Qed.
Lemma iter_inj k a b : wf a -> wf b -> N.iter k Tl a = N.iter k Tl b -> a = b.
Proof.
  intros Ha Hb. induction k using N.peano_ind; [auto|]. rewrite !N.iter_succ. intros E.
  apply IHk. apply Tl_inj in E; auto using wf_iter.
Qed.
Lemma full_period s : wf s -> N.iter MN Tl s = s.
Proof.
  intros H. apply Tl_inj; [now apply wf_iter|exact H|]. rewrite <- N.iter_succ.
  change (N.succ MN) with (2 ^ 256)%N. now apply full_turn.
Qed.

Lemma nofix p v : In p factors_M -> wf v -> N.iter (Z.to_N ((2 ^ 256 - 1) / p)) Tl v = v -> v = zero_st.
Proof.
  unfold factors_M. intros I.
  destruct I as [<-|I].
  { assert (E : Z.to_N ((2 ^ 256 - 1) / 3) = 38597363079105398474523661669562635951089994888546854679819194669304376546645%N) by (vm_compute; reflexivity). rewrite E. exact (nofix_3 v). }
  destruct I as [<-|I].
  { assert (E : Z.to_N ((2 ^ 256 - 1) / 5) = 23158417847463239084714197001737581570653996933128112807891516801582625927987%N) by (vm_compute; reflexivity). rewrite E. exact (nofix_5 v). }
  destruct I as [<-|I].
  { assert (E : Z.to_N ((2 ^ 256 - 1) / 17) = 6811299366900952671974763824040465167839410862684739061144563765171360567055%N) by (vm_compute; reflexivity). rewrite E. exact (nofix_17 v). }
  destruct I as [<-|I].
  { assert (E : Z.to_N ((2 ^ 256 - 1) / 257) = 450552876409790643671482431940419874915447411150352389258589821042463539455%N) by (vm_compute; reflexivity). rewrite E. exact (nofix_257 v). }
  destruct I as [<-|I].
  { assert (E : Z.to_N ((2 ^ 256 - 1) / 65537) = 1766820105243087041267848467410591083712559083657179364930612997358944255%N) by (vm_compute; reflexivity). rewrite E. exact (nofix_65537 v). }
  destruct I as [<-|I].
  { assert (E : Z.to_N ((2 ^ 256 - 1) / 641) = 180642884925610289272341630278764286822574079041560942339247400948382417535%N) by (vm_compute; reflexivity). rewrite E. exact (nofix_641 v). }
  destruct I as [<-|I].
  { assert (E : Z.to_N ((2 ^ 256 - 1) / 6700417) = 17281325809619937896935516850471830014948321076977830490170624307101055%N) by (vm_compute; reflexivity). rewrite E. exact (nofix_6700417 v). }
  destruct I as [<-|I].
  { assert (E : Z.to_N ((2 ^ 256 - 1) / 274177) = 422326049367073807881663979869529201403728192611490256438204459192102655%N) by (vm_compute; reflexivity). rewrite E. exact (nofix_274177 v). }
  destruct I as [<-|I].
  { assert (E : Z.to_N ((2 ^ 256 - 1) / 67280421310721) = 1721036922503113971692907638171526209875755521904893141463060735%N) by (vm_compute; reflexivity). rewrite E. exact (nofix_67280421310721 v). }
  destruct I as [<-|I].
  { assert (E : Z.to_N ((2 ^ 256 - 1) / 59649589127497217) = 1941205143757452242770874767385119893385096602219740994029055%N) by (vm_compute; reflexivity). rewrite E. exact (nofix_59649589127497217 v). }
  destruct I as [<-|I].
  { assert (E : Z.to_N ((2 ^ 256 - 1) / 5704689200685129054721) = 20297703374166229616474325006177763232573806344580020735%N) by (vm_compute; reflexivity). rewrite E. exact (nofix_5704689200685129054721 v). }
  destruct I.
Qed.

Lemma period_ok s k : wf s -> s <> zero_st -> (N.iter k Tl s = s <-> (MN | k)%N).
Proof.
  intros H Nz. split.
  - intros E. pose proof (iter_gcd Tl s _ _ E (full_period s H)) as G.
    set (g := N.gcd k MN) in *. assert (Gd : (g | MN)%N) by apply N.gcd_divide_r.
    destruct (N.eq_dec g MN) as [Eg|Ng].
    + rewrite <- Eg. apply N.gcd_divide_l.
    + exfalso. apply Nz. assert (g <> 0)%N by (intros X; rewrite X in Gd; apply N.divide_0_l in Gd; discriminate).
      destruct (proper_divisor (Z.of_N g)) as (p & Ip & D).
      * lia.
      * destruct Gd as [h Hh]. exists (Z.of_N h). rewrite <- N2Z.inj_mul, <- Hh. reflexivity.
      * intros X. apply Ng. apply N2Z.inj. rewrite X. reflexivity.
      * apply (nofix p s Ip H). destruct D as [h Hh].
        assert (0 <= (2 ^ 256 - 1) / p) by (apply Z.div_pos; [discriminate|]; pose proof (prime_ge_2 p (factors_prime p Ip)); lia).
        assert (0 <= h) by (clear - H1 Hh H0; set (q := (2 ^ 256 - 1) / p) in *; clearbody q; nia).
        rewrite Hh, Z2N.inj_mul, N2Z.id by lia. now apply iter_mul.
  - intros [q ->]. apply iter_mul. now apply full_period.
Qed.
Lemma same_position s a b : wf s -> s <> zero_st -> (a < MN)%N -> (b < MN)%N -> N.iter a Tl s = N.iter b Tl s -> a = b.
Proof.
  intros H Nz Ha Hb E.
  assert (K : forall a b, (a <= b)%N -> (b < MN)%N -> N.iter a Tl s = N.iter b Tl s -> a = b).
  { clear a b Ha Hb E. intros a b L Hb E. replace b with (a + (b - a))%N in E by lia. rewrite N.iter_add in E.
    apply iter_inj in E; [|exact H|now apply wf_iter]. symmetry in E. apply period_ok in E; [|exact H|exact Nz].
    destruct E as [q Hq]. destruct q as [|q]; [lia|]. exfalso. nia. }
  destruct (N.le_ge_cases a b); [|symmetry]; auto.
Qed.
