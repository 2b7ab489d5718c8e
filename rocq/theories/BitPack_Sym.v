(** Symbolic execution of bit-pack programs: every lane bit is tracked to the
    input bit it comes from.  Soundness with respect to BitPack_Model.run. *)
From Coq Require Import String ZArith List Bool Lia.
From Verif Require Import Word Word_Proofs Vec_Model Vec_Proofs Algo_Proofs BitPack_Model.
Import ListNotations.
Local Open Scope string_scope.
Local Open Scope Z_scope.

Inductive sbit := B0 | B1 | In (i : Z) | Unk.   (* constant, input bit, unknown *)
Inductive sval := Bits (l : list sbit) | Frame | PlusFrame (l : list sbit).

Definition sbit_eqb (a b : sbit) : bool :=
  match a, b with B0, B0 => true | B1, B1 => true | In i, In j => i =? j | _, _ => false end.
Definition sand (a b : sbit) : sbit :=
  match a, b with
  | B0, _ => B0 | _, B0 => B0
  | B1, _ => b | _, B1 => a
  | In i, In j => if i =? j then a else Unk
  | _, _ => Unk
  end.
Definition sor (a b : sbit) : sbit :=
  match a, b with
  | B1, _ => B1 | _, B1 => B1
  | B0, _ => b | _, B0 => a
  | In i, In j => if i =? j then a else Unk
  | _, _ => Unk
  end.
Definition sxor (a b : sbit) : sbit :=
  match a, b with
  | B0, _ => b | _, B0 => a
  | B1, B1 => B0
  | In i, In j => if i =? j then B0 else Unk
  | _, _ => Unk
  end.
Definition sandnot (a b : sbit) : sbit :=
  match a, b with
  | B0, _ => b | B1, _ => B0 | _, B0 => B0
  | In i, In j => if i =? j then B0 else Unk
  | _, _ => Unk
  end.
Definition smap2 (f : sbit -> sbit -> sbit) (a b : list sbit) : list sbit :=
  map (fun p => f (fst p) (snd p)) (combine a b).
Fixpoint bits_eqb (a b : list sbit) : bool :=
  match a, b with
  | [], [] => true
  | x :: a', y :: b' => sbit_eqb x y && bits_eqb a' b'
  | _, _ => false
  end.
Definition sval_eqb (a b : sval) : bool :=
  match a, b with
  | Bits x, Bits y => bits_eqb x y
  | Frame, Frame => true
  | PlusFrame x, PlusFrame y => bits_eqb x y
  | _, _ => false
  end.

Section Sym.
Variable W : Z.
Definition sshl (k : Z) (l : list sbit) : list sbit :=
  repeat B0 (Z.to_nat k) ++ firstn (length l - Z.to_nat k) l.
Definition sshr (k : Z) (l : list sbit) : list sbit :=
  skipn (Z.to_nat k) l ++ repeat B0 (Z.to_nat k).
Definition sconst (c : Z) : list sbit :=
  map (fun j => if Z.testbit c (Z.of_nat j) then B1 else B0) (seq 0 (Z.to_nat W)).
Definition sop2 (f : sbit -> sbit -> sbit) (a b : option sval) : option sval :=
  match a, b with Some (Bits x), Some (Bits y) => Some (Bits (smap2 f x y)) | _, _ => None end.

Definition senv := list (string * sval).
Fixpoint seval (srcs : Z -> option sval) (e : senv) (x : expr) : option sval :=
  match x with
  | V y => lookup e y
  | LoadU k => srcs k
  | Set_ c => if (0 <=? c) && (c <? 2 ^ W) then Some (Bits (sconst c)) else None
  | Zero_ => Some (Bits (sconst 0))
  | ShiftLeft k a =>
      if (0 <=? k) && (k <? W) then
        match seval srcs e a with Some (Bits l) => Some (Bits (sshl k l)) | _ => None end else None
  | ShiftRight k a =>
      if (0 <=? k) && (k <? W) then
        match seval srcs e a with Some (Bits l) => Some (Bits (sshr k l)) | _ => None end else None
  | And a b => sop2 sand (seval srcs e a) (seval srcs e b)
  | Or a b => sop2 sor (seval srcs e a) (seval srcs e b)
  | AndNot a b => sop2 sandnot (seval srcs e a) (seval srcs e b)
  | Xor3 a b c => sop2 sxor (seval srcs e a) (sop2 sxor (seval srcs e b) (seval srcs e c))
  | OrAnd o a b => sop2 sor (seval srcs e o) (sop2 sand (seval srcs e a) (seval srcs e b))
  | Add a b =>
      match seval srcs e a, seval srcs e b with
      | Some (Bits x), Some Frame => Some (PlusFrame x)
      | Some (Bits x), Some (Bits y) => if bits_eqb x y && (1 <? W) then Some (Bits (sshl 1 x)) else None
      | _, _ => None
      end
  | Sub a b =>
      match seval srcs e a, seval srcs e b with
      | Some (PlusFrame x), Some Frame => Some (Bits x)
      | _, _ => None
      end
  end.

Definition sstore := list (Z * sval).
Fixpoint slookup (st : sstore) (k : Z) : option sval :=
  match st with
  | (j, v) :: t => if j =? k then Some v else slookup t k
  | [] => None
  end.
(** [n]: number of vectors of the destination *)
Fixpoint sexec (n : Z) (srcs : Z -> option sval) (ss : list stmt) (e : senv) (st : sstore) : option sstore :=
  match ss with
  | [] => Some st
  | Let x a :: t =>
      match seval srcs e a with Some v => sexec n srcs t ((x, v) :: e) st | None => None end
  | StoreU a k :: t =>
      if (0 <=? k) && (k <? n) then
        match seval srcs e a with Some v => sexec n srcs t e ((k, v) :: st) | None => None end
      else None
  end.
Definition srun (n : Z) (srcs : Z -> option sval) (p : prog) : option sstore :=
  sexec n srcs (body p) [("frame_of_reference", Frame)] [].


(** Description of vector k of an array of raw values < 2^kBits (elements of
    [elem] bits; two per lane when [W] = 2 * elem), or of arbitrary values when
    kBits = elem. *)
Fixpoint raw_from (cnt : nat) (elem kBits i r : Z) : list sbit :=
  match cnt with
  | O => []
  | S cnt' => (if r <? kBits then In i else B0) :: raw_from cnt' elem kBits (i + 1) (if r + 1 =? elem then 0 else r + 1)
  end.
Definition raw_bits (elem kBits k : Z) : list sbit := raw_from (Z.to_nat W) elem kBits (k * W) 0.
Definition raw_desc (for_ : bool) (elem kBits n k : Z) : option sval :=
  if (0 <=? k) && (k <? n)
  then Some (if for_ then PlusFrame (raw_bits elem kBits k) else Bits (raw_bits elem kBits k)) else None.

Definition zs (n : Z) : list Z := map Z.of_nat (seq 0 (Z.to_nat n)).
Definition osval_eqb (a b : option sval) : bool :=
  match a, b with Some x, Some y => sval_eqb x y | _, _ => false end.
(** [p1] maps n1 vectors described by [desc] to n2 vectors all of which satisfy
    [mid], and [p2] maps those back to n1 vectors, of which those in [ks] are
    the same as at first. *)
Definition check (desc : Z -> option sval) (n1 n2 : Z) (mid : sval -> bool) (ks : list Z) (p1 p2 : prog) : bool :=
  match srun n2 desc p1 with
  | None => false
  | Some st1 =>
      forallb (fun k => match slookup st1 k with Some v => mid v | None => false end) (zs n2) &&
      match srun n1 (slookup st1) p2 with
      | None => false
      | Some st2 =>
          forallb (fun k => match slookup st2 k with Some _ => true | None => false end) (zs n1) &&
          forallb (fun k => (0 <=? k) && (k <? n1) && osval_eqb (slookup st2 k) (desc k)) ks
      end
  end.
Definition is_bits (v : sval) : bool := match v with Bits _ => true | _ => false end.
(** every bit at position >= kBits of an element is the constant 0 *)
Fixpoint small_from (elem kBits r : Z) (l : list sbit) : bool :=
  match l with
  | [] => true
  | b :: t => ((r <? kBits) || sbit_eqb b B0) && small_from elem kBits (if r + 1 =? elem then 0 else r + 1) t
  end.
Definition small_bits (elem kBits : Z) (l : list sbit) : bool := small_from elem kBits 0 l.
Definition small (for_ : bool) (elem kBits : Z) (v : sval) : bool :=
  match v with
  | Bits l => negb for_ && small_bits elem kBits l
  | PlusFrame l => for_ && small_bits elem kBits l
  | Frame => false
  end.

(* ---------------------------------------------------------------- *)
(** Meaning *)
Definition agrees (inp : Z -> bool) (b : sbit) (v : bool) : Prop :=
  match b with B0 => v = false | B1 => v = true | In i => v = inp i | Unk => True end.
Definition rep (inp : Z -> bool) (l : list sbit) (x : Z) : Prop :=
  Z.of_nat (length l) = W /\ 0 <= x < 2 ^ W /\
  forall j, 0 <= j < W -> agrees inp (nth (Z.to_nat j) l Unk) (Z.testbit x j).

Hypothesis HW : 0 < W.

Ltac agree_tac :=
  cbn; intros; subst; cbn; auto;
  repeat match goal with
  | |- context [?i =? ?j] => destruct (Z.eqb_spec i j); subst
  | |- context [?f ?i] => match type of (f i) with bool => is_var f; destruct (f i) eqn:? end
  | v : bool |- _ => destruct v
  end; cbn in *; auto; try congruence.
Lemma agrees_and i a b x y : agrees i a x -> agrees i b y -> agrees i (sand a b) (x && y).
Proof. destruct a, b; agree_tac. Qed.
Lemma agrees_or i a b x y : agrees i a x -> agrees i b y -> agrees i (sor a b) (x || y).
Proof. destruct a, b; agree_tac. Qed.
Lemma agrees_xor i a b x y : agrees i a x -> agrees i b y -> agrees i (sxor a b) (xorb x y).
Proof. destruct a, b; agree_tac. Qed.
Lemma agrees_andnot i a b x y : agrees i a x -> agrees i b y -> agrees i (sandnot a b) (negb x && y).
Proof. destruct a, b; agree_tac. Qed.

Lemma smap2_nth f (a b : list sbit) j : length a = length b -> (j < length a)%nat ->
  nth j (smap2 f a b) Unk = f (nth j a Unk) (nth j b Unk).
Proof.
  intros L Hj. unfold smap2.
  rewrite (nth_indep _ Unk (f Unk Unk)) by (rewrite map_length, combine_length; lia).
  change (f Unk Unk) with ((fun p => f (fst p) (snd p)) (Unk, Unk)).
  rewrite map_nth, combine_nth by auto. reflexivity.
Qed.
Lemma smap2_length f (a b : list sbit) : length a = length b -> length (smap2 f a b) = length a.
Proof. intros. unfold smap2. rewrite map_length, combine_length. lia. Qed.

Lemma rep_and inp a b x y : rep inp a x -> rep inp b y -> rep inp (smap2 sand a b) (Z.land x y).
Proof.
  intros Ha Hb. assert (Ha' := Ha). assert (Hb' := Hb). destruct Ha' as (La & Ra & Fa), Hb' as (Lb & Rb & Fb).
  split; [|split].
  - rewrite smap2_length; lia.
  - apply land_range; lia.
  - intros j Hj. rewrite smap2_nth by lia. rewrite Z.land_spec. apply agrees_and; auto.
Qed.
Lemma rep_or inp a b x y : rep inp a x -> rep inp b y -> rep inp (smap2 sor a b) (Z.lor x y).
Proof.
  intros (La & Ra & Fa) (Lb & Rb & Fb). split; [|split].
  - rewrite smap2_length; lia.
  - apply lor_range; lia.
  - intros j Hj. rewrite smap2_nth by lia. rewrite Z.lor_spec. apply agrees_or; auto.
Qed.
Lemma lxor_range x y : 0 <= x < 2 ^ W -> 0 <= y < 2 ^ W -> 0 <= Z.lxor x y < 2 ^ W.
Proof.
  intros Hx Hy. assert (0 <= Z.lxor x y) by (apply Z.lxor_nonneg; lia).
  split; auto. replace (Z.lxor x y) with (Z.lxor x y mod 2 ^ W). { apply Z.mod_pos_bound. apply pow2_gt0. lia. }
  apply Z.bits_inj'. intros j Hj. destruct (Z_lt_dec j W).
  - now rewrite Z.mod_pow2_bits_low by lia.
  - rewrite Z.mod_pow2_bits_high by lia. rewrite Z.lxor_spec, (testbit_small x W), (testbit_small y W); auto; lia.
Qed.
Lemma rep_xor inp a b x y : rep inp a x -> rep inp b y -> rep inp (smap2 sxor a b) (Z.lxor x y).
Proof.
  intros (La & Ra & Fa) (Lb & Rb & Fb). split; [|split].
  - rewrite smap2_length; lia.
  - apply lxor_range; lia.
  - intros j Hj. rewrite smap2_nth by lia. rewrite Z.lxor_spec. apply agrees_xor; auto.
Qed.
Lemma rep_andnot inp a b x y : rep inp a x -> rep inp b y -> rep inp (smap2 sandnot a b) (lane_andnot W x y).
Proof.
  intros (La & Ra & Fa) (Lb & Rb & Fb). assert (P := pow2_gt0 W ltac:(lia)). split; [|split].
  - rewrite smap2_length; lia.
  - unfold lane_andnot. apply land_range; [lia|]. apply lxor_range; lia.
  - intros j Hj. rewrite smap2_nth by lia. unfold lane_andnot. rewrite Z.land_spec, Z.lxor_spec.
    replace (Z.testbit (2 ^ W - 1) j) with true.
    + rewrite xorb_true_r. apply agrees_andnot; auto.
    + replace (2 ^ W - 1) with (Z.ones W) by (rewrite Z.ones_equiv; lia). symmetry. apply Z.ones_spec_low. lia.
Qed.

Lemma rep_shl inp a x k : 0 <= k < W -> rep inp a x -> rep inp (sshl k a) (lane_shl W k x).
Proof.
  intros Hk (La & Ra & Fa). unfold lane_shl, sshl. split; [|split].
  - rewrite app_length, repeat_length, firstn_length. lia.
  - apply wrap_range. lia.
  - intros j Hj. rewrite testbit_wrap by lia. rewrite Z.shiftl_spec by lia.
    replace (j <? W) with true by (symmetry; apply Z.ltb_lt; lia).
    destruct (Z_lt_dec j k) as [h|h].
    + rewrite app_nth1 by (rewrite repeat_length; lia). rewrite (nth_indep _ Unk B0) by (rewrite repeat_length; lia). rewrite nth_repeat.
      cbn. apply Z.testbit_neg_r. lia.
    + rewrite app_nth2 by (rewrite repeat_length; lia). rewrite repeat_length.
      replace (Z.to_nat j - Z.to_nat k)%nat with (Z.to_nat (j - k)) by lia.
      rewrite <- (firstn_skipn (length a - Z.to_nat k) a) in Fa.
      specialize (Fa (j - k) ltac:(lia)). rewrite app_nth1 in Fa by (rewrite firstn_length; lia). exact Fa.
Qed.

Lemma rep_shr inp a x k : 0 <= k < W -> rep inp a x -> rep inp (sshr k a) (lane_shr k x).
Proof.
  intros Hk (La & Ra & Fa). unfold lane_shr, sshr. split; [|split].
  - rewrite app_length, repeat_length, skipn_length. lia.
  - rewrite Z.shiftr_div_pow2 by lia. assert (0 < 2 ^ k) by (apply pow2_gt0; lia). split.
    + apply Z.div_pos; lia.
    + apply Z.le_lt_trans with x; [|lia]. apply Z.div_le_upper_bound; [lia|]. nia.
  - intros j Hj. rewrite Z.shiftr_spec by lia.
    destruct (Z_lt_dec (j + k) W) as [h|h].
    + rewrite app_nth1 by (rewrite skipn_length; lia). specialize (Fa (j + k) ltac:(lia)).
      rewrite <- (firstn_skipn (Z.to_nat k) a) in Fa.
      rewrite app_nth2 in Fa by (rewrite firstn_length; lia).
      rewrite firstn_length in Fa. replace (Z.to_nat (j + k) - Nat.min (Z.to_nat k) (length a))%nat with (Z.to_nat j) in Fa by lia.
      exact Fa.
    + rewrite app_nth2 by (rewrite skipn_length; lia).
      rewrite (nth_indep _ Unk B0) by (rewrite repeat_length, skipn_length; lia). rewrite nth_repeat.
      cbn. apply (testbit_small x W); lia.
Qed.

Lemma rep_const inp c : 0 <= c < 2 ^ W -> rep inp (sconst c) c.
Proof.
  intros Hc. unfold sconst. split; [|split]; auto.
  - rewrite map_length, seq_length. lia.
  - intros j Hj.
    rewrite (nth_indep _ Unk ((fun j => if Z.testbit c (Z.of_nat j) then B1 else B0) 0%nat)) by (rewrite map_length, seq_length; lia).
    rewrite (map_nth (fun j => if Z.testbit c (Z.of_nat j) then B1 else B0)). rewrite seq_nth by lia.
    rewrite Nat.add_0_l, Z2Nat.id by lia. destruct (Z.testbit c j); reflexivity.
Qed.

Lemma sbit_eqb_eq a b : sbit_eqb a b = true -> a = b /\ a <> Unk.
Proof. destruct a, b; cbn; try discriminate; try (split; congruence). intros H. apply Z.eqb_eq in H. split; congruence. Qed.
Lemma bits_eqb_eq a : forall b, bits_eqb a b = true -> a = b /\ Forall (fun x => x <> Unk) a.
Proof.
  induction a as [|x a IH]; intros [|y b]; cbn; try discriminate; auto.
  intros H. apply andb_true_iff in H. destruct H as [h1 h2]. apply sbit_eqb_eq in h1. apply IH in h2.
  destruct h1, h2. split; [congruence|auto].
Qed.

Lemma rep_inj inp l x y : Forall (fun b => b <> Unk) l -> rep inp l x -> rep inp l y -> x = y.
Proof.
  intros NU (L & Rx & Hx) (_ & Ry & Hy).
  apply Z.bits_inj'. intros j Hj.
  destruct (Z_lt_dec j W) as [h|h].
  - specialize (Hx j ltac:(lia)). specialize (Hy j ltac:(lia)).
    rewrite Forall_forall in NU. specialize (NU (nth (Z.to_nat j) l Unk) ltac:(apply nth_In; lia)).
    destruct (nth (Z.to_nat j) l Unk); cbn in *; congruence.
  - rewrite (testbit_small x W), (testbit_small y W); auto; lia.
Qed.

(* ---------------------------------------------------------------- *)
(** Vectors of [L] lanes; [inp l]: the input bits of lane l. *)
Section Vectors.
Variable le : bool.
Variable N : Z.
Variable c : bool.
Hypothesis HN : 0 < N.
Hypothesis Hc : c = true -> N mod 2 = 0.
Variable frame : Z.
Variable inp : Z -> Z -> bool.
Notation L := (lanes N c).

Lemma lanes_pos : 0 < L /\ (if c then N = 2 * L else N = L).
Proof.
  unfold lanes. destruct c; [|lia]. specialize (Hc eq_refl).
  assert (H := Z.div_mod N 2 ltac:(lia)). lia.
Qed.

Definition dens (l : Z) (sv : sval) (x : Z) : Prop :=
  match sv with
  | Bits b => rep (inp l) b x
  | Frame => x = frame
  | PlusFrame b => exists y, rep (inp l) b y /\ x = wrap W (y + frame)
  end.
Definition vden (sv : sval) (v : vec) : Prop :=
  zlen v = L /\ forall l, 0 <= l < L -> dens l sv (nth (Z.to_nat l) v 0).

Lemma vmap2_nth f (a b : vec) l : zlen a = L -> zlen b = L -> 0 <= l < L ->
  nth (Z.to_nat l) (vmap2 f a b) 0 = f (nth (Z.to_nat l) a 0) (nth (Z.to_nat l) b 0).
Proof.
  unfold zlen. intros Ha Hb Hl. unfold vmap2.
  rewrite (nth_indep _ 0 (f 0 0)) by (rewrite map_length, combine_length; lia).
  change (f 0 0) with ((fun p => f (fst p) (snd p)) (0, 0)).
  rewrite map_nth, combine_nth by lia. reflexivity.
Qed.
Lemma vmap2_len f (a b : vec) : zlen a = L -> zlen b = L -> zlen (vmap2 f a b) = L.
Proof. unfold zlen, vmap2. intros. rewrite map_length, combine_length. lia. Qed.

Lemma vden_bin f g a b x y :
  (forall i p q u v, rep i p u -> rep i q v -> rep i (smap2 g p q) (f u v)) ->
  vden (Bits a) x -> vden (Bits b) y -> vden (Bits (smap2 g a b)) (vmap2 f x y).
Proof.
  intros H [Lx Hx] [Ly Hy]. split. { apply vmap2_len; auto. }
  intros l Hl. rewrite vmap2_nth by auto. cbn. apply H; [apply Hx|apply Hy]; auto.
Qed.
Lemma map_nth0 (f : Z -> Z) (v : vec) l : zlen v = L -> 0 <= l < L ->
  nth (Z.to_nat l) (map f v) 0 = f (nth (Z.to_nat l) v 0).
Proof.
  unfold zlen. intros Lv Hl. rewrite (nth_indep _ 0 (f 0)) by (rewrite map_length; lia). apply map_nth.
Qed.
Lemma vden_un f g a x :
  (forall i p u, rep i p u -> rep i (g p) (f u)) ->
  vden (Bits a) x -> vden (Bits (g a)) (map f x).
Proof.
  intros H [Lx Hx]. split. { unfold zlen in *. now rewrite map_length. }
  intros l Hl. rewrite map_nth0 by auto. cbn. apply H. now apply Hx.
Qed.
Lemma vden_set cst : 0 <= cst < 2 ^ W -> vden (Bits (sconst cst)) (set L cst).
Proof.
  intros H. assert (HL := lanes_pos). unfold set. split. { unfold zlen. rewrite repeat_length. lia. }
  intros l Hl. rewrite (nth_indep _ 0 cst) by (rewrite repeat_length; lia). rewrite nth_repeat. cbn. now apply rep_const.
Qed.

(** bytes of a vector in memory *)
Definition enc (v : vec) : list Z := if c then bitcast8 le v else v.
Lemma bitcast16_8 (v : vec) : bitcast16 le (bitcast8 le v) = v.
Proof.
  induction v as [|x v IH]; cbn [bitcast8]; auto.
  destruct le; cbn [app bitcast16]; rewrite IH; f_equal; rewrite Z.add_comm; symmetry; apply Z.div_mod; lia.
Qed.
Lemma load_vec_enc src k v : loadu src (k * N) N = Some (enc v) -> load_vec le N c src k = Some v.
Proof. intros E. unfold load_vec. rewrite E. unfold enc. destruct c; auto. now rewrite bitcast16_8. Qed.
Definition src_ok (src : list Z) (srcs : Z -> option sval) : Prop :=
  forall k sv, srcs k = Some sv -> exists v, loadu src (k * N) N = Some (enc v) /\ vden sv v.
Definition env_ok (e : env) (se : senv) : Prop :=
  forall x sv, lookup se x = Some sv -> exists v, lookup e x = Some v /\ vden sv v.

Lemma sop2_sound f g ea eb sa sb r :
  (forall i p q u v, rep i p u -> rep i q v -> rep i (smap2 g p q) (f u v)) ->
  (forall s, sa = Some s -> exists v, ea = Some v /\ vden s v) ->
  (forall s, sb = Some s -> exists v, eb = Some v /\ vden s v) ->
  sop2 g sa sb = Some r -> exists v, o2 (vmap2 f) ea eb = Some v /\ vden r v.
Proof.
  intros H Ha Hb E. unfold sop2 in E. destruct sa as [[a| |a]|]; try discriminate.
  destruct sb as [[b| |b]|]; try discriminate. injection E as <-.
  destruct (Ha _ eq_refl) as (va & -> & Va). destruct (Hb _ eq_refl) as (vb & -> & Vb).
  cbn. eexists; split; [reflexivity|]. apply vden_bin; auto.
Qed.

Lemma eval_sound src srcs e se : src_ok src srcs -> env_ok e se ->
  forall x sv, seval srcs se x = Some sv -> exists v, eval le W N c src e x = Some v /\ vden sv v.
Proof.
  intros Hs He. induction x; cbn [seval eval]; intros sv E.
  - apply He. exact E.
  - destruct (Hs _ _ E) as (v & Ev & Vv). exists v. split; auto. now apply load_vec_enc.
  - destruct ((0 <=? c0) && (c0 <? 2 ^ W)) eqn:Q; [|discriminate]. injection E as <-.
    apply andb_true_iff in Q. destruct Q as [q1 q2]. apply Z.leb_le in q1. apply Z.ltb_lt in q2.
    eexists; split; [reflexivity|]. now apply vden_set.
  - injection E as <-. eexists; split; [reflexivity|]. apply vden_set. split; [lia|]. apply pow2_gt0; lia.
  - destruct ((0 <=? k) && (k <? W)) eqn:Q; [|discriminate].
    apply andb_true_iff in Q. destruct Q as [q1 q2]. apply Z.leb_le in q1. apply Z.ltb_lt in q2.
    destruct (seval srcs se x) as [[l| |l]|]; try discriminate. injection E as <-.
    destruct (IHx _ eq_refl) as (v & -> & Vv). cbn. eexists; split; [reflexivity|].
    apply (vden_un (lane_shl W k) (sshl k)); auto. intros. apply rep_shl; auto; lia.
  - destruct ((0 <=? k) && (k <? W)) eqn:Q; [|discriminate].
    apply andb_true_iff in Q. destruct Q as [q1 q2]. apply Z.leb_le in q1. apply Z.ltb_lt in q2.
    destruct (seval srcs se x) as [[l| |l]|]; try discriminate. injection E as <-.
    destruct (IHx _ eq_refl) as (v & -> & Vv). cbn. eexists; split; [reflexivity|].
    apply (vden_un (lane_shr k) (sshr k)); auto. intros. apply rep_shr; auto; lia.
  - eapply sop2_sound; eauto. exact rep_and.
  - eapply sop2_sound; eauto. exact rep_or.
  - eapply sop2_sound; eauto. exact rep_andnot.
  - eapply sop2_sound; [exact rep_xor|eauto| |exact E].
    intros s Es. eapply sop2_sound; [exact rep_xor| | |exact Es]; eauto.
  - eapply sop2_sound; [exact rep_or|eauto| |exact E].
    intros s Es. eapply sop2_sound; [exact rep_and| | |exact Es]; eauto.
  - destruct (seval srcs se x1) as [[a| |a]|]; try discriminate.
    destruct (seval srcs se x2) as [[b| |b]|]; try discriminate.
    + destruct (bits_eqb a b && (1 <? W)) eqn:Q; [|discriminate]. injection E as <-.
      apply andb_true_iff in Q. destruct Q as [q1 q2]. apply bits_eqb_eq in q1. destruct q1 as [<- NU].
      apply Z.ltb_lt in q2.
      destruct (IHx1 _ eq_refl) as (va & -> & La & Va). destruct (IHx2 _ eq_refl) as (vb & -> & Lb & Vb).
      cbn [o2]. eexists; split; [reflexivity|]. split. { apply vmap2_len; auto. }
      intros l Hl. rewrite vmap2_nth by auto. specialize (Va l Hl). specialize (Vb l Hl). cbn [dens] in *.
      rewrite (rep_inj _ _ _ _ NU Vb Va).
      replace (lane_add W (nth (Z.to_nat l) va 0) (nth (Z.to_nat l) va 0)) with (lane_shl W 1 (nth (Z.to_nat l) va 0)).
      * apply rep_shl; auto; lia.
      * unfold lane_shl, lane_add. f_equal. rewrite Z.shiftl_mul_pow2 by lia. lia.
    + injection E as <-.
      destruct (IHx1 _ eq_refl) as (va & -> & La & Va). destruct (IHx2 _ eq_refl) as (vb & -> & Lb & Vb).
      cbn [o2]. eexists; split; [reflexivity|]. split. { apply vmap2_len; auto. }
      intros l Hl. rewrite vmap2_nth by auto. specialize (Va l Hl). specialize (Vb l Hl). cbn [dens] in *.
      rewrite Vb. eexists; split; [exact Va|reflexivity].
  - destruct (seval srcs se x1) as [[a| |a]|]; try discriminate.
    destruct (seval srcs se x2) as [[b| |b]|]; try discriminate.
    injection E as <-.
    destruct (IHx1 _ eq_refl) as (va & -> & La & Va). destruct (IHx2 _ eq_refl) as (vb & -> & Lb & Vb).
    cbn [o2]. eexists; split; [reflexivity|]. split. { apply vmap2_len; auto. }
    intros l Hl. rewrite vmap2_nth by auto. specialize (Va l Hl). specialize (Vb l Hl). cbn [dens] in *.
    destruct Va as (y & Ry & ->). rewrite Vb. unfold lane_sub. rewrite wrap_sub_l.
    replace (y + frame - frame) with y by lia. rewrite wrap_small; auto. apply Ry.
Qed.

(** Memory *)
Lemma bitcast8_len (v : vec) : zlen (bitcast8 le v) = 2 * zlen v.
Proof. unfold zlen. induction v as [|x v IH]; cbn [bitcast8]; auto. rewrite app_length. destruct le; cbn [length]; lia. Qed.
Lemma loadu_len (l : list Z) i n v : loadu l i n = Some v -> 0 <= n -> zlen v = n.
Proof.
  unfold loadu. destruct ((0 <=? i) && (i + n <=? zlen l)) eqn:Q; [|discriminate]. intros E Hn. injection E as <-.
  apply andb_true_iff in Q. destruct Q as [q1 q2]. apply Z.leb_le in q1. apply Z.leb_le in q2.
  rewrite zlen_firstn; auto. rewrite zlen_skipn; lia.
Qed.

Definition vlen_store (v : vec) : zlen v = L -> zlen (if c then bitcast8 le v else v) = N.
Proof. intros H. assert (HL := lanes_pos). destruct c; [rewrite bitcast8_len|]; lia. Qed.

Lemma store_split dst k v : 0 <= k -> k * N + N <= zlen dst -> zlen v = L ->
  store_vec le N c dst k v =
    Some (firstn (Z.to_nat (k * N)) dst ++ (if c then bitcast8 le v else v) ++ skipn (Z.to_nat (k * N + N)) dst)%list.
Proof.
  intros Hk Hd Hv. assert (Lv := vlen_store v Hv). unfold store_vec, storeu.
  rewrite Lv. replace ((0 <=? k * N) && (k * N + N <=? zlen dst)) with true.
  - do 4 f_equal. unfold zlen in Lv. rewrite Z2Nat.inj_add by lia. lia.
  - symmetry. apply andb_true_iff. split; [apply Z.leb_le; nia|apply Z.leb_le; lia].
Qed.
Lemma load_store_same dst k v d' : 0 <= k -> k * N + N <= zlen dst -> zlen v = L ->
  store_vec le N c dst k v = Some d' -> loadu d' (k * N) N = Some (enc v).
Proof.
  intros Hk Hd Hv E. assert (Lv := vlen_store v Hv). rewrite store_split in E by auto. injection E as <-.
  fold (enc v) in *. set (w := enc v) in *.
  assert (Lf : zlen (firstn (Z.to_nat (k * N)) dst) = k * N) by (apply zlen_firstn; nia).
  set (t := skipn (Z.to_nat (k * N + N)) dst) in *. set (a := firstn (Z.to_nat (k * N)) dst) in *. rewrite <- Lf.
  rewrite loadu_app by (rewrite zlen_app; assert (G := zlen_nonneg t); lia).
  replace (firstn (Z.to_nat N) (w ++ t)%list) with w.
  - reflexivity.
  - rewrite firstn_app. unfold zlen in Lv. replace (Z.to_nat N - length w)%nat with 0%nat by lia.
    rewrite firstn_O, app_nil_r. symmetry. apply firstn_all2. lia.
Qed.
Lemma store_len dst k v d' : 0 <= k -> k * N + N <= zlen dst -> zlen v = L ->
  store_vec le N c dst k v = Some d' -> zlen d' = zlen dst.
Proof.
  intros Hk Hd Hv E. assert (Lv := vlen_store v Hv). rewrite store_split in E by auto. injection E as <-.
  rewrite !zlen_app, Lv, zlen_firstn, zlen_skipn; nia.
Qed.
Lemma loadu_ext (a b : list Z) i n : zlen a = zlen b ->
  (forall j, i <= j < i + n -> nth_error a (Z.to_nat j) = nth_error b (Z.to_nat j)) -> loadu a i n = loadu b i n.
Proof.
  intros Hl Hj. unfold loadu. rewrite Hl. destruct ((0 <=? i) && (i + n <=? zlen b)) eqn:Q; auto. f_equal.
  apply andb_true_iff in Q. destruct Q as [q1 q2]. apply Z.leb_le in q1. apply Z.leb_le in q2.
  unfold zlen in *. apply nth_error_ext. intros m.
  destruct (Nat.lt_ge_cases m (Z.to_nat n)) as [h|h].
  - rewrite !nth_error_firstn', !nth_error_skipn' by auto.
    specialize (Hj (i + Z.of_nat m) ltac:(lia)). rewrite Z2Nat.inj_add, Nat2Z.id in Hj by lia. exact Hj.
  - rewrite (proj2 (nth_error_None _ m)), (proj2 (nth_error_None _ m)); auto; rewrite firstn_length; lia.
Qed.

Lemma store_nth dst k v d' j : 0 <= k -> k * N + N <= zlen dst -> zlen v = L ->
  store_vec le N c dst k v = Some d' -> 0 <= j -> (j < k * N \/ k * N + N <= j) ->
  nth_error d' (Z.to_nat j) = nth_error dst (Z.to_nat j).
Proof.
  intros Hk Hd Hv E Hj Ho. assert (Lv := vlen_store v Hv). rewrite store_split in E by auto. injection E as <-.
  set (w := if c then bitcast8 le v else v) in *. assert (0 <= k * N) by nia. unfold zlen in *.
  destruct Ho as [h|h].
  - rewrite nth_error_app1 by (rewrite firstn_length; lia). apply nth_error_firstn'. lia.
  - rewrite nth_error_app2 by (rewrite firstn_length; lia). rewrite nth_error_app2 by (rewrite firstn_length; lia).
    rewrite nth_error_skipn'. f_equal. rewrite firstn_length. lia.
Qed.
Lemma load_store_other dst k v d' k' : 0 <= k -> k * N + N <= zlen dst -> zlen v = L ->
  store_vec le N c dst k v = Some d' -> 0 <= k' -> k' <> k -> loadu d' (k' * N) N = loadu dst (k' * N) N.
Proof.
  intros Hk Hd Hv E Hk' Hne. apply loadu_ext. { exact (store_len dst k v d' Hk Hd Hv E). }
  intros j Hj. apply (store_nth dst k v d' j Hk Hd Hv E); nia.
Qed.

Definition keys_ok (n : Z) (st : sstore) : Prop := forall k sv, slookup st k = Some sv -> 0 <= k < n.
Definition mem_ok (n : Z) (dst0 dst : list Z) (st : sstore) : Prop :=
  zlen dst = zlen dst0 /\
  (forall j, n * N <= j -> nth_error dst (Z.to_nat j) = nth_error dst0 (Z.to_nat j)) /\
  src_ok dst (slookup st).

Lemma exec_sound n src srcs dst0 : 0 <= n -> n * N <= zlen dst0 -> src_ok src srcs ->
  forall ss e se st dst r, env_ok e se -> keys_ok n st -> mem_ok n dst0 dst st ->
  sexec n srcs ss se st = Some r ->
  exists d', exec le W N c src ss e dst = Some d' /\ keys_ok n r /\ mem_ok n dst0 d' r.
Proof.
  intros Hn Hd Hs. induction ss as [|s ss IH]; intros e se st dst r He Hk Hm E.
  - injection E as <-. exists dst. cbn. auto.
  - destruct s as [x a|a k]; cbn [sexec exec] in *.
    + destruct (seval srcs se a) as [sv|] eqn:Ea; [|discriminate].
      destruct (eval_sound _ _ _ _ Hs He _ _ Ea) as (v & -> & Vv).
      eapply IH; [| | |exact E]; auto.
      intros y sv' Hy. cbn [lookup] in *. destruct (String.eqb y x); [|apply He; auto].
      injection Hy as <-. eauto.
    + destruct ((0 <=? k) && (k <? n)) eqn:Q; [|discriminate].
      apply andb_true_iff in Q. destruct Q as [q1 q2]. apply Z.leb_le in q1. apply Z.ltb_lt in q2.
      destruct (seval srcs se a) as [sv|] eqn:Ea; [|discriminate].
      destruct (eval_sound _ _ _ _ Hs He _ _ Ea) as (v & -> & Vv).
      destruct Hm as (M1 & M2 & M3). assert (K : k * N + N <= zlen dst) by nia.
      assert (Lv : zlen v = L) by apply Vv.
      destruct (store_vec le N c dst k v) as [d'|] eqn:Es. 2:{ rewrite store_split in Es by auto. discriminate. }
      eapply IH; [| | |exact E]; auto.
      * intros k' sv' Hl. cbn [slookup] in Hl. destruct (Z.eqb_spec k k'); [lia|eauto].
      * split; [|split].
        -- rewrite <- M1. exact (store_len dst k v d' q1 K Lv Es).
        -- intros j Hj. rewrite <- M2 by auto. apply (store_nth dst k v d' j q1 K Lv Es); nia.
        -- intros k' sv' Hl. cbn [slookup] in Hl. destruct (Z.eqb_spec k k') as [<-|ne].
           ++ injection Hl as <-. exists v. split; auto. exact (load_store_same dst k v d' q1 K Lv Es).
           ++ destruct (M3 _ _ Hl) as (v' & E' & V'). exists v'. split; auto.
              rewrite <- E'. apply (load_store_other dst k v d' k' q1 K Lv Es); auto. destruct (Hk _ _ Hl). lia.
Qed.

(** A whole program, with p's cast flag [c]. *)
Lemma run_sound p n src srcs dst r : cast p = c ->
  0 <= n -> n * N <= zlen dst -> src_ok src srcs ->
  srun n srcs p = Some r ->
  exists d', exec le W N c src (body p) [("frame_of_reference", set L frame)] dst = Some d' /\
    zlen d' = zlen dst /\
    (forall j, n * N <= j -> nth_error d' (Z.to_nat j) = nth_error dst (Z.to_nat j)) /\
    keys_ok n r /\ src_ok d' (slookup r).
Proof.
  intros _ Hn Hd Hs E. unfold srun in E.
  eapply exec_sound in E; [|exact Hn|exact Hd|exact Hs| | |].
  - destruct E as (d' & E1 & M0 & M1 & M2 & M3). exists d'. split; [exact E1|]. auto.
  - intros x sv Hl. cbn [lookup] in *. destruct (String.eqb x "frame_of_reference"); [|discriminate].
    injection Hl as <-. eexists; split; [reflexivity|]. assert (HL := lanes_pos). unfold set. split.
    + unfold zlen. rewrite repeat_length. lia.
    + intros l Hl. rewrite (nth_indep _ 0 frame) by (rewrite repeat_length; lia). rewrite nth_repeat. reflexivity.
  - intros k sv Hl. discriminate.
  - split; [|split]; auto. intros k sv Hl. discriminate.
Qed.

Lemma vden_inj sv v1 v2 :
  (match sv with Bits l | PlusFrame l => Forall (fun b => b <> Unk) l | Frame => True end) ->
  vden sv v1 -> vden sv v2 -> v1 = v2.
Proof.
  intros NU [L1 H1] [L2 H2]. unfold zlen in *. apply (nth_ext _ _ 0 0); [lia|].
  intros m Hm. specialize (H1 (Z.of_nat m) ltac:(lia)). specialize (H2 (Z.of_nat m) ltac:(lia)).
  rewrite Nat2Z.id in *. destruct sv as [l| |l]; cbn [dens] in *.
  - eapply rep_inj; eauto.
  - congruence.
  - destruct H1 as (y1 & R1 & ->), H2 as (y2 & R2 & ->). now rewrite (rep_inj _ _ _ _ NU R1 R2).
Qed.
Lemma sval_eqb_eq a b : sval_eqb a b = true ->
  a = b /\ match a with Bits l | PlusFrame l => Forall (fun b => b <> Unk) l | Frame => True end.
Proof.
  destruct a, b; cbn; try discriminate; auto; intros H; apply bits_eqb_eq in H; destruct H; split; congruence || auto.
Qed.

Lemma in_zs n k : 0 <= k < n -> List.In k (zs n).
Proof. intros H. unfold zs. apply in_map_iff. exists (Z.to_nat k). split; [lia|]. apply in_seq. lia. Qed.

Lemma check_sound desc n1 n2 mid ks p1 p2 src mid0 : cast p1 = c -> cast p2 = c ->
  0 <= n1 -> 0 <= n2 -> n2 * N <= zlen mid0 ->
  check desc n1 n2 mid ks p1 p2 = true -> src_ok src desc ->
  exists m,
    exec le W N c src (body p1) [("frame_of_reference", set L frame)] mid0 = Some m /\
    zlen m = zlen mid0 /\
    (forall j, n2 * N <= j -> nth_error m (Z.to_nat j) = nth_error mid0 (Z.to_nat j)) /\
    (forall k, 0 <= k < n2 -> exists sv v, mid sv = true /\ loadu m (k * N) N = Some (enc v) /\ vden sv v) /\
    (forall m' back0, n1 * N <= zlen back0 ->
      (forall k, 0 <= k < n2 -> loadu m' (k * N) N = loadu m (k * N) N) ->
      exists b,
      exec le W N c m' (body p2) [("frame_of_reference", set L frame)] back0 = Some b /\
      zlen b = zlen back0 /\
      (forall j, n1 * N <= j -> nth_error b (Z.to_nat j) = nth_error back0 (Z.to_nat j)) /\
      (forall k, List.In k ks -> exists w, loadu src (k * N) N = Some w /\ loadu b (k * N) N = Some w)).
Proof.
  intros C1 C2 H1 H2 L1 E Hs. unfold check in E.
  destruct (srun n2 desc p1) as [st1|] eqn:E1; [|discriminate].
  apply andb_true_iff in E. destruct E as [Em E].
  destruct (srun n1 (slookup st1) p2) as [st2|] eqn:E2; [|discriminate].
  apply andb_true_iff in E. destruct E as [_ Ek].
  destruct (run_sound p1 n2 src desc mid0 st1 C1 H2 L1 Hs E1) as (m & R1 & Z1 & T1 & K1 & S1).
  exists m. split; [|split; [|split; [|split]]]; auto.
  - intros k Hk. rewrite forallb_forall in Em. specialize (Em k (in_zs _ _ Hk)).
    destruct (slookup st1 k) as [sv|] eqn:El; [|discriminate].
    destruct (S1 _ _ El) as (v & Ev & Vv). exists sv, v. auto.
  - intros m' back0 L2 Hm'.
    assert (S1' : src_ok m' (slookup st1)).
    { intros k sv Hl. rewrite Hm' by (eapply K1; eauto). auto. }
    destruct (run_sound p2 n1 m' (slookup st1) back0 st2 C2 H1 L2 S1' E2) as (b & R2 & Z2 & T2 & _ & S2).
    exists b. split; [|split; [|split]]; auto.
    intros k Hk. rewrite forallb_forall in Ek. specialize (Ek k Hk).
    apply andb_true_iff in Ek. destruct Ek as [_ Ek]. unfold osval_eqb in Ek.
    destruct (slookup st2 k) as [sv2|] eqn:El2; [|discriminate].
    destruct (desc k) as [sv|] eqn:Ed; [|discriminate].
    apply sval_eqb_eq in Ek. destruct Ek as [<- NU].
    destruct (S2 _ _ El2) as (v2 & Ev2 & Vv2). destruct (Hs _ _ Ed) as (v & Ev & Vv).
    exists (enc v). split; auto. rewrite Ev2. do 2 f_equal. eapply vden_inj; eauto.
Qed.
End Vectors.
End Sym.
