(** C70: the loop unroller hwy/contrib/unroller/unroller-inl.h. *)
From Coq Require Import ZArith List Lia Bool Arith.
From Verif Require Import Word Word_Proofs Vec_Model Vec_Proofs Dot_Model Dot_Proofs MatVec_Proofs Unroll_Model Unroll_Proofs.
Import ListNotations.
Local Open Scope Z_scope.

(** Specification: what the user's Func computes. Lane k of the vector for
    index idx is element idx + k. *)
Definition lane_map1 {A B} (g : Z -> A -> B) (func : Z -> list A -> list B -> list B) : Prop :=
  forall idx xs ys, length (func idx xs ys) = length xs /\
    forall k x, nth_error xs k = Some x -> nth_error (func idx xs ys) k = Some (g (idx + Z.of_nat k) x).
Definition lane_map2 {A A' B} (g : Z -> A -> A' -> B) (func : Z -> list A * list A' -> list B -> list B) : Prop :=
  forall idx xs xs' ys, length xs = length xs' -> length (func idx (xs, xs') ys) = length xs /\
    forall k x x', nth_error xs k = Some x -> nth_error xs' k = Some x' -> nth_error (func idx (xs, xs') ys) k = Some (g (idx + Z.of_nat k) x x').
(** lane k: y_k op g(idx + k, x_k) *)
Definition lane_reduce1 {A B} (op : B -> B -> B) (g : Z -> A -> B) (func : Z -> list A -> list B -> list B) : Prop :=
  forall idx xs ys, length xs = length ys -> length (func idx xs ys) = length xs /\
    forall k x y, nth_error xs k = Some x -> nth_error ys k = Some y -> nth_error (func idx xs ys) k = Some (op y (g (idx + Z.of_nat k) x)).
Definition lane_reduce2 {A A' B} (op : B -> B -> B) (g : Z -> A -> A' -> B) (func : Z -> list A * list A' -> list B -> list B) : Prop :=
  forall idx xs xs' ys, length xs = length ys -> length xs' = length ys -> length (func idx (xs, xs') ys) = length xs /\
    forall k x x' y, nth_error xs k = Some x -> nth_error xs' k = Some x' -> nth_error ys k = Some y -> nth_error (func idx (xs, xs') ys) k = Some (op y (g (idx + Z.of_nat k) x x')).
Definition comm_monoid {B} (op : B -> B -> B) (e : B) : Prop :=
  (forall x y, op x y = op y x) /\ (forall x y z, op x (op y z) = op (op x y) z) /\ (forall x, op e x = x).
(** g 0 x_0 op ... op g (n-1) x_(n-1) *)
Fixpoint fold_from {A B} (op : B -> B -> B) (e : B) (g : Z -> A -> B) (i : Z) (l : list A) : B :=
  match l with [] => e | x :: l' => op (g i x) (fold_from op e g (i + 1) l') end.
Definition set_first {B} (y : list B) (v : B) : list B := match y with [] => [] | _ :: t => v :: t end.

Lemma rd_nth {A} (l : list A) k : rd l (Z.of_nat k) = nth_error l k.
Proof. unfold rd. destruct (Z.ltb_spec (Z.of_nat k) 0); [lia|]. now rewrite Nat2Z.id. Qed.
Lemma rd_nth' {A} (l : list A) k : 0 <= k -> rd l k = nth_error l (Z.to_nat k).
Proof. intros H. rewrite <- (Z2Nat.id k H) at 1. apply rd_nth. Qed.
Definition at_ {A B} (d : B) (g : Z -> A -> B) (x : list A) (k : Z) : B := match rd x k with Some a => g k a | None => d end.

Section Loads.
Context {A : Type} (x : list A) (L n : Z).
Hypothesis HL : 0 < L < 2 ^ 63.
Hypothesis Hn : 0 <= n <= zlen x.
Hypothesis HW : zlen x <= 2 ^ 64.
Lemma load_lanes i : 0 <= i -> i + L <= n -> exists v, load_impl L x i = Some v /\ zlen v = L /\ forall k, 0 <= k < L -> rd v k = rd x (i + k).
Proof.
  intros Hi Hin. unfold load_impl. rewrite loadu_ok by lia. eexists. split; [reflexivity|]. split.
  - rewrite zlen_firstn; [reflexivity|]. rewrite zlen_skipn by lia. lia.
  - intros k Hk. rewrite !rd_nth' by lia. rewrite ne_firstn, ne_skipn by lia. f_equal. lia.
Qed.
Lemma mask_load_lanes fill p : 0 < p < L -> p <= n -> exists v, mask_load_impl fill L x (n - L) (- p) = Some v /\ zlen v = L /\
  forall k, 0 <= k < L -> rd v k = if k <? L - p then Some fill else rd x (n - L + k).
Proof.
  intros Hp Hpn. unfold mask_load_impl. destruct (ml_gen fill (places_mask L (- p)) x (n - L) HW) as (v & E & LV & R).
  - intros k Hk. rewrite mask_neg in Hk by lia. apply andb_true_iff in Hk. destruct Hk as (H1 & H2). apply Z.leb_le in H1. apply Z.ltb_lt in H2. lia.
  - exists v. split; [exact E|]. rewrite mask_len in LV. split; [unfold zlen; lia|]. intros k Hk. rewrite R by (unfold zlen; rewrite mask_len; lia). rewrite mask_neg by lia.
    destruct (Z.leb_spec (L + - p) k), (Z.ltb_spec k L), (Z.ltb_spec k (L - p)); try lia; reflexivity.
Qed.
Lemma tmp_load_lanes fill gx : n < L -> n + zlen gx <= 2 ^ 64 -> exists c v, loadu x 0 n = Some c /\ mask_load_impl fill L (c ++ gx) 0 n = Some v /\ zlen v = L /\
  forall k, 0 <= k < L -> rd v k = if k <? n then rd x k else Some fill.
Proof.
  intros HnL HG. rewrite loadu_ok by lia. eexists. set (c := firstn _ _). assert (LC : zlen c = n) by (unfold c; change (skipn (Z.to_nat 0) x) with x; apply zlen_firstn; lia).
  unfold mask_load_impl. pose proof (zlen_nonneg gx). destruct (ml_gen fill (places_mask L n) (c ++ gx) 0) as (v & E & LV & R).
  - rewrite zlen_app. lia.
  - intros k Hk. rewrite mask_pos in Hk by lia. apply andb_true_iff in Hk. destruct Hk as (H1 & H2). apply Z.leb_le in H1. apply Z.ltb_lt in H2. rewrite zlen_app. lia.
  - exists v. split; [reflexivity|]. split; [exact E|]. rewrite mask_len in LV. split; [unfold zlen; lia|]. intros k Hk. rewrite R by (unfold zlen; rewrite mask_len; lia). rewrite mask_pos by lia.
    destruct (Z.leb_spec 0 k); [|lia]. destruct (Z.ltb_spec k n); [|reflexivity]. cbn [andb]. replace (0 + k) with k by lia. rewrite (rd_app1 c gx k) by lia. unfold c. change (skipn (Z.to_nat 0) x) with x. rewrite !rd_nth' by lia. apply ne_firstn. lia.
Qed.
End Loads.

(** C70, element-wise units with the default stores: for every n, y[k] becomes
    g(k, x[k]) for exactly the k < n, everything else in y is unchanged, and no
    element outside x[0, n), y[0, n) and the temporary buffers is accessed
    (whichever lanes masked loads may touch, contents of the buffers arbitrary). *)
Theorem C70_unroller_map : forall {A A' B : Type} (fill : A) (fill' : A') (zero : B) L (fault : bool) gx gx' gy yinit (x : list A) (x' : list A') (y : list B) n,
  0 < L < 2 ^ 63 -> 0 <= n -> n <= Z.of_nat (length x) <= 2 ^ 64 -> n <= Z.of_nat (length x') <= 2 ^ 64 -> n <= Z.of_nat (length y) <= 2 ^ 64 ->
  n + Z.of_nat (length gx) <= 2 ^ 64 -> n + Z.of_nat (length gx') <= 2 ^ 64 -> L + Z.of_nat (length gy) <= 2 ^ 64 ->
  (forall g func, lane_map1 g func -> exists y', unroller1 (map_unit L yinit func) fill zero L L fault gx gy x y n = Some y' /\ length y' = length y /\
     forall k, (k < length y)%nat -> nth_error y' k = if Z.of_nat k <? n then option_map (g (Z.of_nat k)) (nth_error x k) else nth_error y k) /\
  (forall g func, lane_map2 g func -> exists y', unroller2 (map_unit L yinit func) fill fill' zero L fault gx gx' gy x x' y n = Some y' /\ length y' = length y /\
     forall k, (k < length y)%nat -> nth_error y' k = if Z.of_nat k <? n then match nth_error x k, nth_error x' k with Some a, Some b => Some (g (Z.of_nat k) a b) | _, _ => None end else nth_error y k).
Proof.
  intros A A' B fill fill' zero L fault gx gx' gy yinit x x' y n HL Hn Hx Hx' Hy Hg Hg' Hgy.
  fold (zlen x) in Hx. fold (zlen x') in Hx'. fold (zlen y) in Hy. fold (zlen gx) in Hg. fold (zlen gx') in Hg'. fold (zlen gy) in Hgy. split.
  - intros g func HF. set (G := at_ zero g x).
    assert (XG : forall i xs ys k j, zlen xs = L -> 0 <= k < L -> rd xs k = rd x j -> j = i + k -> 0 <= j < n -> rd (func i xs ys) k = Some (G (i + k))).
    { intros i xs ys k j LX Hk E -> Hj. destruct (rd_some x (i + k)) as (a & Ea); [lia|]. rewrite Ea in E. unfold G, at_. rewrite Ea. rewrite rd_nth' in E by lia. rewrite rd_nth' by lia.
      destruct (HF i xs ys) as (_ & R). specialize (R _ _ E). rewrite Z2Nat.id in R by lia. exact R. }
    destruct (map_unroller_ok func yinit zero L n (load_impl L x) (mask_load_impl fill L x) (do c <- loadu x 0 n; mask_load_impl fill L (c ++ gx) 0 n) G y HL) with (fault := fault) (small := n <? L) (gy := gy) as (y' & E & L' & R); try lia; auto.
    + intros i Hi Hin. destruct (load_lanes x L n HL ltac:(lia) i Hi Hin) as (v & E & LV & R). exists v. split; [exact E|]. intros yv v0. split; [unfold v0, zlen in *; rewrite (proj1 (HF i v yv)); lia|].
      intros k Hk. apply (XG i v yv k (i + k)); auto; lia.
    + intros p Hp Hpn. destruct (mask_load_lanes x L n HL ltac:(lia) ltac:(lia) fill p Hp Hpn) as (v & E & LV & R). exists v. split; [exact E|]. intros yv v0. split; [unfold v0, zlen in *; rewrite (proj1 (HF (n - L) v yv)); lia|].
      intros k Hk. apply (XG (n - L) v yv k (n - L + k)); try lia. rewrite R by lia. destruct (Z.ltb_spec k (L - p)); [lia|reflexivity].
    + intros HnL. destruct (tmp_load_lanes x L n HL ltac:(lia) fill gx HnL ltac:(lia)) as (c & v & -> & E & LV & R). exists v. split; [exact E|]. intros yv v0. split; [unfold v0, zlen in *; rewrite (proj1 (HF 0 v yv)); lia|].
      intros k Hk. apply (XG 0 v yv k k); try lia. rewrite R by lia. destruct (Z.ltb_spec k n); [reflexivity|lia].
    + exists y'. split; [exact E|]. split; [unfold zlen in L'; lia|]. intros k Hk. specialize (R (Z.of_nat k) ltac:(unfold zlen; lia)). rewrite !rd_nth in R. rewrite R. destruct (Z.ltb_spec (Z.of_nat k) n); [|reflexivity].
      unfold G, at_. rewrite rd_nth. destruct (nth_error x k) eqn:EX; [reflexivity|]. apply nth_error_None in EX. unfold zlen in Hx. lia.
  - intros g func HF. set (G := fun k => match rd x k, rd x' k with Some a, Some b => g k a b | _, _ => zero end).
    assert (XG : forall i xs xs' ys k j, zlen xs = L -> zlen xs' = L -> 0 <= k < L -> rd xs k = rd x j -> rd xs' k = rd x' j -> j = i + k -> 0 <= j < n -> rd (func i (xs, xs') ys) k = Some (G (i + k))).
    { intros i xs xs' ys k j LX LX' Hk E E' -> Hj. destruct (rd_some x (i + k)) as (a & Ea); [lia|]. destruct (rd_some x' (i + k)) as (a' & Ea'); [lia|]. rewrite Ea in E. rewrite Ea' in E'. unfold G. rewrite Ea, Ea'. rewrite rd_nth' in E by lia. rewrite rd_nth' in E' by lia. rewrite rd_nth' by lia.
      destruct (HF i xs xs' ys) as (_ & R); [unfold zlen in *; lia|]. specialize (R _ _ _ E E'). rewrite Z2Nat.id in R by lia. exact R. }
    assert (XL : forall i xs xs' ys, zlen xs = L -> zlen xs' = L -> zlen (func i (xs, xs') ys) = L).
    { intros i xs xs' ys LX LX'. unfold zlen in *. rewrite (proj1 (HF i xs xs' ys ltac:(lia))). lia. }
    match goal with |- exists y', unroller2 _ _ _ _ _ _ _ _ _ _ _ _ _ = _ /\ _ => unfold unroller2 end.
    match goal with |- exists y', unroller _ _ _ _ ?ld ?mld ?tmld _ _ _ _ = _ /\ _ => destruct (map_unroller_ok func yinit zero L n ld mld tmld G y HL) with (fault := fault) (small := n <? L) (gy := gy) as (y' & E & L' & R); try lia; auto end.
    + intros i Hi Hin. destruct (load_lanes x L n HL ltac:(lia) i Hi Hin) as (v & -> & LV & R). destruct (load_lanes x' L n HL ltac:(lia) i Hi Hin) as (v' & -> & LV' & R'). cbn [bind]. exists (v, v'). split; [reflexivity|]. intros yv. split; [now apply XL|].
      intros k Hk. apply (XG i v v' yv k (i + k)); auto; lia.
    + intros p Hp Hpn. destruct (mask_load_lanes x L n HL ltac:(lia) ltac:(lia) fill p Hp Hpn) as (v & -> & LV & R). destruct (mask_load_lanes x' L n HL ltac:(lia) ltac:(lia) fill' p Hp Hpn) as (v' & -> & LV' & R'). cbn [bind]. exists (v, v'). split; [reflexivity|]. intros yv. split; [now apply XL|].
      intros k Hk. apply (XG (n - L) v v' yv k (n - L + k)); try lia; [rewrite R by lia|rewrite R' by lia]; (destruct (Z.ltb_spec k (L - p)); [lia|reflexivity]).
    + intros HnL. destruct (tmp_load_lanes x L n HL ltac:(lia) fill gx HnL ltac:(lia)) as (c & v & -> & E & LV & R). destruct (tmp_load_lanes x' L n HL ltac:(lia) fill' gx' HnL ltac:(lia)) as (c' & v' & -> & E' & LV' & R'). cbn [bind]. rewrite E, E'. cbn [bind]. exists (v, v'). split; [reflexivity|]. intros yv. split; [now apply XL|].
      intros k Hk. apply (XG 0 v v' yv k k); try lia; [rewrite R by lia|rewrite R' by lia]; (destruct (Z.ltb_spec k n); [reflexivity|lia]).
    + exists y'. split; [exact E|]. split; [unfold zlen in L'; lia|]. intros k Hk. specialize (R (Z.of_nat k) ltac:(unfold zlen; lia)). rewrite !rd_nth in R. rewrite R. destruct (Z.ltb_spec (Z.of_nat k) n); [|reflexivity].
      unfold G. rewrite !rd_nth. destruct (nth_error x k) eqn:EX; [|apply nth_error_None in EX; unfold zlen in Hx; lia]. destruct (nth_error x' k) eqn:EX'; [reflexivity|]. apply nth_error_None in EX'. unfold zlen in Hx'. lia.
Qed.
Print Assumptions C70_unroller_map.

Section Tot.
Context {B : Type} (op : B -> B -> B) (e : B).
Hypothesis op_comm : forall x y, op x y = op y x.
Hypothesis op_assoc : forall x y z, op x (op y z) = op (op x y) z.
Hypothesis op_e : forall x, op e x = x.
(** a vector whose lanes are y_k op h k, with h k = e outside [lo, hi) *)
Lemma total_lanes (h : nat -> B) : forall (v yv : list B) , length v = length yv -> (forall k y, nth_error yv k = Some y -> nth_error v k = Some (op y (h k))) ->
  reduce_sum op e v = op (reduce_sum op e yv) (reduce_sum op e (map h (seq 0 (length yv)))).
Proof.
  intros v yv. revert h v. induction yv as [|y yv IH]; intros h [|a v] HL H; cbn in HL; try lia.
  - cbn. now rewrite op_e.
  - pose proof (H O y eq_refl) as H0. cbn in H0. injection H0 as ->. cbn [length seq map reduce_sum fold_right]. unfold reduce_sum in IH. cbn [fold_right]. rewrite (IH (fun k => h (S k)) v); [|lia|intros k b Hk; apply (H (S k) b Hk)].
    rewrite <- seq_shift, map_map. fold (reduce_sum op e yv). apply (swap4 op op_comm op_assoc).
Qed.
Lemma total_e (h : nat -> B) l : (forall k, In k l -> h k = e) -> reduce_sum op e (map h l) = e.
Proof. induction l as [|k l IH]; intros H; [reflexivity|]. cbn [map reduce_sum fold_right]. rewrite (H k (or_introl eq_refl)), op_e. apply IH. intros; apply H; now right. Qed.
(** the fill lanes contribute e *)
Lemma total_window (h : nat -> B) (G : Z -> B) lo len (L : nat) : (lo + len <= L)%nat -> (forall k, (k < lo \/ lo + len <= k < L)%nat -> h k = e) -> forall base, (forall k, (lo <= k < lo + len)%nat -> h k = G (base + Z.of_nat (k - lo))) ->
  reduce_sum op e (map h (seq 0 L)) = range_sum op e G base (base + Z.of_nat len).
Proof.
  intros HL HE base HG. replace L with (lo + (len + (L - lo - len)))%nat by lia. rewrite !seq_app, !map_app, !(total_app op e op_assoc op_e). rewrite (total_e h (seq 0 lo)), op_e by (intros k Hk; apply in_seq in Hk; apply HE; lia).
  rewrite (total_e h (seq (0 + lo + len) _)) by (intros k Hk; apply in_seq in Hk; apply HE; lia). rewrite op_comm, op_e. unfold range_sum. replace (Z.to_nat (base + Z.of_nat len - base)) with len by lia. f_equal.
  cbn [Nat.add]. rewrite <- (seq_shift_n len lo), map_map. apply map_ext_in. intros k Hk. apply in_seq in Hk. rewrite HG by lia. do 2 f_equal. lia.
Qed.
Lemma fold_from_total {A} (g : Z -> A -> B) (G : Z -> B) l : forall i, (forall k a, nth_error l k = Some a -> G (i + Z.of_nat k) = g (i + Z.of_nat k) a) ->
  fold_from op e g i l = reduce_sum op e (map (fun k => G (i + Z.of_nat k)) (seq 0 (length l))).
Proof.
  induction l as [|a l IH]; intros i H; [reflexivity|]. cbn [fold_from length seq map reduce_sum fold_right]. pose proof (H O a eq_refl) as H0. cbn [Z.of_nat] in *. rewrite Z.add_0_r in *. rewrite H0. f_equal.
  rewrite IH. - rewrite <- seq_shift, map_map. unfold reduce_sum. f_equal. apply map_ext. intros k. f_equal. lia.
  - intros k b Hk. specialize (H (S k) b Hk). replace (i + 1 + Z.of_nat k) with (i + Z.of_nat (S k)) by lia. exact H.
Qed.
End Tot.

(** C70, reducing units: y[0] becomes the reduction of exactly the n elements,
    each once; nothing else is written. [fill] is what masked-off lanes load
    (the default is zero) and must be neutral. *)
Theorem C70_unroller_reduce : forall {A A' B : Type} (op : B -> B -> B) e (fill : A) (fill' : A') (zero : B) L (fault : bool) gx gx' gy (x : list A) (x' : list A') (y : list B) n,
  comm_monoid op e -> 0 < L < 2 ^ 63 -> 0 <= n -> n <= Z.of_nat (length x) <= 2 ^ 64 -> n <= Z.of_nat (length x') <= 2 ^ 64 -> (0 < length y)%nat ->
  n + Z.of_nat (length gx) <= 2 ^ 64 -> n + Z.of_nat (length gx') <= 2 ^ 64 ->
  (forall g func, lane_reduce1 op g func -> (forall i, g i fill = e) ->
     unroller1 (reduce_unit op e L func) fill zero L L fault gx gy x y n = Some (set_first y (fold_from op e g 0 (firstn (Z.to_nat n) x)))) /\
  (forall g func, lane_reduce2 op g func -> (forall i, g i fill fill' = e) ->
     unroller2 (reduce_unit op e L func) fill fill' zero L fault gx gx' gy x x' y n =
     Some (set_first y (fold_from op e (fun i p => g i (fst p) (snd p)) 0 (firstn (Z.to_nat n) (combine x x'))))).
Proof.
  intros A A' B op e fill fill' zero L fault gx gx' gy x x' y n (C & S & E0) HL Hn Hx Hx' Hy Hg Hg'.
  fold (zlen x) in Hx. fold (zlen x') in Hx'. fold (zlen gx) in Hg. fold (zlen gx') in Hg'.
  assert (WR : forall v, wr y 0 v = Some (set_first y v)).
  { intros v. destruct y as [|b y]; [cbn in Hy; lia|]. unfold wr. destruct (Z.ltb_spec 0 (zlen (b :: y))); [reflexivity|unfold zlen in *; cbn [length] in *; lia]. }
  assert (KEY : forall {XV} (func : Z -> XV -> list B -> list B) (G : Z -> B) (H : XV -> Z -> nat -> B),
    (forall i xv yv, zlen yv = L -> (length (func i xv yv) = length yv /\ forall k b, nth_error yv k = Some b -> nth_error (func i xv yv) k = Some (op b (H xv i k))) ->
      forall lo len base, (lo + len <= Z.to_nat L)%nat -> (forall k, (k < lo \/ lo + len <= k < Z.to_nat L)%nat -> H xv i k = e) -> (forall k, (lo <= k < lo + len)%nat -> H xv i k = G (base + Z.of_nat (k - lo))) ->
      zlen (func i xv yv) = L /\ reduce_sum op e (func i xv yv) = op (reduce_sum op e yv) (range_sum op e G base (base + Z.of_nat len)))).
  { intros XV func G H i xv yv LY (LF & RF) lo len base HLo HE HG. split; [unfold zlen in *; lia|]. rewrite (total_lanes op e C S E0 (H xv i) _ yv LF RF). f_equal.
    replace (length yv) with (Z.to_nat L) by (unfold zlen in LY; lia). apply (total_window op e C S E0 (H xv i) G lo len); auto. }
  split.
  - intros g func HF HZ. set (G := at_ e g x). set (H := fun (xv : list A) i k => match nth_error xv k with Some a => g (i + Z.of_nat k) a | None => e end).
    assert (FL : forall i xv yv, zlen yv = L -> zlen xv = L -> length (func i xv yv) = length yv /\ forall k b, nth_error yv k = Some b -> nth_error (func i xv yv) k = Some (op b (H xv i k))).
    { intros i xv yv LY LX. unfold zlen in *. destruct (HF i xv yv) as (LF & RF); [lia|]. split; [lia|]. intros k b Hb. assert (k < length yv)%nat by (apply nth_error_Some; congruence).
      unfold H. destruct (nth_error xv k) as [a|] eqn:Ea; [now apply RF|]. apply nth_error_None in Ea. lia. }
    assert (HX : forall i xv k, (k < Z.to_nat L)%nat -> rd xv (Z.of_nat k) = Some fill -> H xv i k = e).
    { intros i xv k Hk E. rewrite rd_nth in E. unfold H. now rewrite E. }
    assert (HG : forall i xv k j, 0 <= j < n -> j = i + Z.of_nat k -> rd xv (Z.of_nat k) = rd x j -> H xv i k = G j).
    { intros i xv k j Hj -> E. unfold H, G, at_. rewrite rd_nth in E. rewrite E. reflexivity. }
    unfold unroller1. rewrite (reduce_unroller_ok op e func zero L n C S E0 (load_impl L x) (mask_load_impl fill L x) (do c <- loadu x 0 n; mask_load_impl fill L (c ++ gx) 0 n) G HL Hn); auto.
    + rewrite WR. do 2 f_equal. rewrite (fold_from_total op e g G).
      * unfold range_sum. do 2 f_equal. f_equal. rewrite firstn_length. unfold zlen in Hx. lia.
      * intros k a Ha. assert (k < length (firstn (Z.to_nat n) x))%nat by (apply nth_error_Some; congruence). rewrite firstn_length in *. rewrite ne_firstn in Ha by lia. unfold G, at_. cbn [Z.add]. rewrite rd_nth, Ha. reflexivity.
    + intros i Hi Hin. destruct (load_lanes x L n HL ltac:(lia) i Hi Hin) as (v & E & LV & R). exists v. split; [exact E|]. intros yv LY. replace (i + L) with (i + Z.of_nat (Z.to_nat L)) by lia.
      apply (KEY _ func G H i v yv LY (FL i v yv LY LV) O (Z.to_nat L) i); [lia|intros; lia|]. intros k Hk. rewrite Nat.sub_0_r. apply HG; [lia|lia|]. apply R. lia.
    + intros p Hp Hpn. destruct (mask_load_lanes x L n HL ltac:(lia) ltac:(lia) fill p Hp Hpn) as (v & E & LV & R). exists v. split; [exact E|]. intros yv LY. replace (range_sum op e G (n - p) n) with (range_sum op e G (n - p) (n - p + Z.of_nat (Z.to_nat p))) by (f_equal; lia).
      apply (KEY _ func G H (n - L) v yv LY (FL (n - L) v yv LY LV) (Z.to_nat (L - p)) (Z.to_nat p) (n - p)); [lia| |].
      * intros k Hk. apply HX; [lia|]. rewrite R by lia. destruct (Z.ltb_spec (Z.of_nat k) (L - p)); [reflexivity|lia].
      * intros k Hk. apply HG; [lia|lia|]. rewrite R by lia. destruct (Z.ltb_spec (Z.of_nat k) (L - p)); [lia|]. f_equal. lia.
    + intros HnL. destruct (tmp_load_lanes x L n HL ltac:(lia) fill gx HnL ltac:(lia)) as (c & v & -> & E & LV & R). exists v. split; [exact E|]. intros yv LY. replace (range_sum op e G 0 n) with (range_sum op e G 0 (0 + Z.of_nat (Z.to_nat n))) by (f_equal; lia).
      apply (KEY _ func G H 0 v yv LY (FL 0 v yv LY LV) O (Z.to_nat n) 0); [lia| |].
      * intros k Hk. apply HX; [lia|]. rewrite R by lia. destruct (Z.ltb_spec (Z.of_nat k) n); [lia|reflexivity].
      * intros k Hk. apply HG; [lia|lia|]. rewrite R by lia. destruct (Z.ltb_spec (Z.of_nat k) n); [|lia]. f_equal. lia.
    + unfold zlen. lia.
  - intros g func HF HZ. set (G := fun k => match rd x k, rd x' k with Some a, Some b => g k a b | _, _ => e end).
    set (H := fun (xv : list A * list A') i k => match nth_error (fst xv) k, nth_error (snd xv) k with Some a, Some a' => g (i + Z.of_nat k) a a' | _, _ => e end).
    assert (FL : forall i xv xv' yv, zlen yv = L -> zlen xv = L -> zlen xv' = L -> length (func i (xv, xv') yv) = length yv /\ forall k b, nth_error yv k = Some b -> nth_error (func i (xv, xv') yv) k = Some (op b (H (xv, xv') i k))).
    { intros i xv xv' yv LY LX LX'. unfold zlen in *. destruct (HF i xv xv' yv) as (LF & RF); [lia..|]. split; [lia|]. intros k b Hb. assert (k < length yv)%nat by (apply nth_error_Some; congruence).
      unfold H. cbn [fst snd]. destruct (nth_error xv k) as [a|] eqn:Ea; [|apply nth_error_None in Ea; lia]. destruct (nth_error xv' k) as [a'|] eqn:Ea'; [now apply RF|]. apply nth_error_None in Ea'. lia. }
    assert (HX : forall i xv xv' k, (k < Z.to_nat L)%nat -> rd xv (Z.of_nat k) = Some fill -> rd xv' (Z.of_nat k) = Some fill' -> H (xv, xv') i k = e).
    { intros i xv xv' k Hk E E'. rewrite rd_nth in E. rewrite rd_nth in E'. unfold H. cbn [fst snd]. now rewrite E, E'. }
    assert (HG : forall i xv xv' k j, 0 <= j < n -> j = i + Z.of_nat k -> rd xv (Z.of_nat k) = rd x j -> rd xv' (Z.of_nat k) = rd x' j -> H (xv, xv') i k = G j).
    { intros i xv xv' k j Hj -> E E'. unfold H, G. cbn [fst snd]. rewrite rd_nth in E. rewrite rd_nth in E'. rewrite E, E'. reflexivity. }
    unfold unroller2. rewrite (reduce_unroller_ok op e func zero L n C S E0) with (G := G); auto.
    + rewrite WR. do 2 f_equal. rewrite (fold_from_total op e _ G).
      * unfold range_sum. do 2 f_equal. f_equal. rewrite firstn_length, combine_length. unfold zlen in *. lia.
      * intros k (a, a') Ha. assert (k < length (firstn (Z.to_nat n) (combine x x')))%nat by (apply nth_error_Some; congruence). rewrite firstn_length in *. rewrite ne_firstn in Ha by lia. unfold G. cbn [Z.add]. rewrite !rd_nth.
        assert (EE : nth_error x k = Some a /\ nth_error x' k = Some a').
        { clear -Ha. revert x' k Ha. induction x as [|u x IH]; intros [|u' x'] [|k] Ha; cbn in Ha; try discriminate; [injection Ha as -> ->; auto|]. cbn. now apply IH. }
        destruct EE as (-> & ->). reflexivity.
    + intros i Hi Hin. destruct (load_lanes x L n HL ltac:(lia) i Hi Hin) as (v & -> & LV & R). destruct (load_lanes x' L n HL ltac:(lia) i Hi Hin) as (v' & -> & LV' & R'). cbn [bind]. exists (v, v'). split; [reflexivity|]. intros yv LY. replace (i + L) with (i + Z.of_nat (Z.to_nat L)) by lia.
      apply (KEY _ func G H i (v, v') yv LY (FL i v v' yv LY LV LV') O (Z.to_nat L) i); [lia|intros; lia|]. intros k Hk. rewrite Nat.sub_0_r. apply HG; [lia|lia|apply R; lia|apply R'; lia].
    + intros p Hp Hpn. destruct (mask_load_lanes x L n HL ltac:(lia) ltac:(lia) fill p Hp Hpn) as (v & -> & LV & R). destruct (mask_load_lanes x' L n HL ltac:(lia) ltac:(lia) fill' p Hp Hpn) as (v' & -> & LV' & R'). cbn [bind].
      exists (v, v'). split; [reflexivity|]. intros yv LY. replace (range_sum op e G (n - p) n) with (range_sum op e G (n - p) (n - p + Z.of_nat (Z.to_nat p))) by (f_equal; lia).
      apply (KEY _ func G H (n - L) (v, v') yv LY (FL (n - L) v v' yv LY LV LV') (Z.to_nat (L - p)) (Z.to_nat p) (n - p)); [lia| |].
      * intros k Hk. apply HX; [lia|rewrite R by lia|rewrite R' by lia]; (destruct (Z.ltb_spec (Z.of_nat k) (L - p)); [reflexivity|lia]).
      * intros k Hk. apply HG; [lia|lia|rewrite R by lia|rewrite R' by lia]; (destruct (Z.ltb_spec (Z.of_nat k) (L - p)); [lia|]; f_equal; lia).
    + intros HnL. destruct (tmp_load_lanes x L n HL ltac:(lia) fill gx HnL ltac:(lia)) as (c & v & -> & E & LV & R). destruct (tmp_load_lanes x' L n HL ltac:(lia) fill' gx' HnL ltac:(lia)) as (c' & v' & -> & E' & LV' & R'). cbn [bind]. rewrite E, E'. cbn [bind].
      exists (v, v'). split; [reflexivity|]. intros yv LY. replace (range_sum op e G 0 n) with (range_sum op e G 0 (0 + Z.of_nat (Z.to_nat n))) by (f_equal; lia).
      apply (KEY _ func G H 0 (v, v') yv LY (FL 0 v v' yv LY LV LV') O (Z.to_nat n) 0); [lia| |].
      * intros k Hk. apply HX; [lia|rewrite R by lia|rewrite R' by lia]; (destruct (Z.ltb_spec (Z.of_nat k) n); [lia|reflexivity]).
      * intros k Hk. apply HG; [lia|lia|rewrite R by lia|rewrite R' by lia]; (destruct (Z.ltb_spec (Z.of_nat k) n); [|lia]; f_equal; lia).
    + unfold zlen. lia.
Qed.
Print Assumptions C70_unroller_reduce.

(** concrete units: y = 2x + index; the sum (AccumulateUnit); the minimum (MinUnit) *)
Definition ex_func (idx : Z) (xs ys : list Z) : list Z := map (fun p => 2 * snd p + (idx + Z.of_nat (fst p))) (combine (seq 0 (length xs)) xs).
Definition sum_func (op : Z -> Z -> Z) (idx : Z) (xs ys : list Z) : list Z := map (fun p => op (snd p) (fst p)) (combine xs ys).
Example C70_ex :
  unroller1 (map_unit 4 [0; 0; 0; 0] ex_func) 0 0 4 4 false [] [] (map Z.of_nat (seq 0 27)) (repeat (-1) 29) 27 = Some (map (fun k => 3 * Z.of_nat k) (seq 0 27) ++ [-1; -1]) /\
  unroller1 (map_unit 4 [0; 0; 0; 0] ex_func) 0 0 4 4 true [77] [99] [5; 6; 7] [0; 0; 0; 0] 3 = Some [10; 13; 16; 0] /\
  unroller1 (map_unit 4 [0; 0; 0; 0] ex_func) 0 0 4 4 false [] [] [5; 6; 7] [0; 0; 0; 0] 3 = Some [10; 13; 16; 0] /\
  unroller1 (reduce_unit Z.add 0 4 (sum_func Z.add)) 0 0 4 4 false [] [] (map Z.of_nat (seq 0 27)) [0; 5] 27 = Some [351; 5] /\
  unroller1 (reduce_unit Z.add 0 4 (sum_func Z.add)) 0 0 4 4 true [50] [70] [3; 4; 5] [0; 5] 3 = Some [12; 5].
Proof. repeat split; vm_compute; reflexivity. Qed.
Example C70_ex_hyp : lane_reduce1 Z.add (fun _ x => x) (sum_func Z.add) /\ comm_monoid Z.add 0.
Proof.
  split; [|repeat split; intros; lia]. intros idx xs ys E. unfold sum_func. split; [rewrite map_length, combine_length; lia|]. intros k x y Hx Hy. apply (map_nth_error (fun p => snd p + fst p) k (combine xs ys)) with (d := (x, y)).
  revert xs ys E Hx Hy. induction k as [|k IH]; intros [|a xs] [|b ys] E Hx Hy; cbn in *; try discriminate; [congruence|]. apply IH; auto; lia.
Qed.
Example C70_ex_hyp_map : lane_map1 (fun i x => 2 * x + i) ex_func.
Proof.
  intros idx xs ys. unfold ex_func. split; [rewrite map_length, combine_length, seq_length; lia|]. intros k x Hx.
  apply (map_nth_error (fun p => 2 * snd p + (idx + Z.of_nat (fst p))) k (combine (seq 0 (length xs)) xs)) with (d := (k, x)). assert (G : forall s, nth_error (combine (seq s (length xs)) xs) k = Some ((s + k)%nat, x)); [|apply (G O)].
  revert k Hx. induction xs as [|a xs IH]; intros [|k] Hx s; cbn in *; try discriminate; [injection Hx as ->; do 2 f_equal; lia|]. rewrite (IH k Hx (S s)). do 2 f_equal. lia.
Qed.

(** C70, early exit: a unit whose Store returns false stops the loop at once:
    if the stores at 0, L, ..., (m-1)L continue and the one at mL does not, the
    result is exactly what that store left in y; in particular later vectors are neither
    stored nor reduced. [ys j] is the output before the store at jL. *)
Theorem C70_short_circuit : forall {A B : Type} (f : unroller_unit (list A) B) (fill : A) (zero : B) L Lmax (fault : bool) gx gy (x : list A) (y : list B) n m (ys : Z -> list B),
  0 < L < 2 ^ 63 -> 0 <= n <= Z.of_nat (length x) -> Z.of_nat (length x) <= 2 ^ 64 -> 0 <= m -> (m + 1) * L <= n -> (fault = true -> Lmax <= n) -> ys 0 = y ->
  (forall j yy, 0 <= j <= m -> u_store f (j * L) (ys j) (u_func f (j * L) (firstn (Z.to_nat L) (skipn (Z.to_nat (j * L)) x)) yy) = Some (ys (j + 1), j <? m)) ->
  unroller1 f fill zero L Lmax fault gx gy x y n = Some (ys (m + 1)).
Proof.
  intros A B f fill zero L Lmax fault gx gy x y n m ys HL Hn HW Hm HmL HF H0 ST. fold (zlen x) in Hn, HW.
  assert (LD : forall i, 0 <= i -> i + L <= n -> load_impl L x i = Some (firstn (Z.to_nat L) (skipn (Z.to_nat i) x))) by (intros i H1 H2; unfold load_impl; rewrite loadu_ok by lia; reflexivity).
  assert (L1 : forall fuel j yy, 0 <= j <= m -> n - j * L < Z.of_nat fuel -> loop1 f L n (load_impl L x) fuel (j * L) (ys j) yy = Some (inl (ys (m + 1)))).
  { induction fuel as [|fuel IH]; intros j yy Hj HFu; [nia|]. cbn [loop1]. destruct (Z.ltb_spec (j * L + L - 1) n); [|nia]. rewrite LD by nia. cbn [bind]. rewrite ST by lia. cbn [bind]. destruct (Z.ltb_spec j m); cbn [negb].
    - replace (j * L + L) with ((j + 1) * L) by ring. apply IH; nia.
    - replace j with m by lia. reflexivity. }
  assert (L4 : forall fuel j s, 0 <= j <= m -> n - j * L < Z.of_nat fuel -> loop4 f L n (load_impl L x) fuel (j * L) (ys j) s = Some (inl (ys (m + 1))) \/
    exists j' s', 0 <= j' <= m /\ loop4 f L n (load_impl L x) fuel (j * L) (ys j) s = Some (inr (j' * L, ys j', s'))).
  { induction fuel as [|fuel IH]; intros j s Hj HFu; [nia|]. cbn [loop4]. destruct (Z.ltb_spec (j * L + 4 * L - 1) n) as [HB|HB]; [|right; exists j, s; split; [lia|reflexivity]].
    rewrite !LD by nia. cbn [bind]. destruct s as [[[yy yy1] yy2] yy3]. replace (j * L + L + L + L - 3 * L) with (j * L) by ring. rewrite ST by lia. cbn [bind].
    destruct (Z.ltb_spec j m); cbn [negb]; [|left; replace j with m by lia; reflexivity].
    replace (j * L + L) with ((j + 1) * L) by ring. rewrite ST by lia. cbn [bind]. destruct (Z.ltb_spec (j + 1) m); cbn [negb]; [|left; replace (j + 1) with m by lia; reflexivity].
    replace ((j + 1) * L + L) with ((j + 1 + 1) * L) by ring. replace (j * L + 2 * L) with ((j + 1 + 1) * L) by ring. rewrite ST by lia. cbn [bind]. destruct (Z.ltb_spec (j + 1 + 1) m); cbn [negb]; [|left; replace (j + 1 + 1) with m by lia; reflexivity].
    replace ((j + 1 + 1) * L + L) with ((j + 1 + 1 + 1) * L) by ring. replace (j * L + 3 * L) with ((j + 1 + 1 + 1) * L) by ring. rewrite ST by lia. cbn [bind]. destruct (Z.ltb_spec (j + 1 + 1 + 1) m); cbn [negb]; [|left; replace (j + 1 + 1 + 1) with m by lia; reflexivity].
    replace ((j + 1 + 1 + 1) * L + L) with ((j + 1 + 1 + 1 + 1) * L) by ring. apply IH; nia. }
  unfold unroller1, unroller. replace (fault && (n <? Lmax)) with false by (destruct fault; [cbn [andb]; symmetry; apply Z.ltb_ge; apply HF; reflexivity|reflexivity]).
  rewrite <- H0.
  assert (R1 : forall j yy, 0 <= j <= m -> loop1 f L n (load_impl L x) (S (Z.to_nat n)) (j * L) (ys j) yy = Some (inl (ys (m + 1)))) by (intros j yy Hj; apply L1; nia).
  destruct (4 * L <? n).
  - match goal with |- context [loop4 _ _ _ _ _ _ _ ?s0] => destruct (L4 (S (Z.to_nat n)) 0 s0) as [E|(j' & s' & Hj' & E)]; [lia|lia| |] end.
    + change (0 * L) with 0 in E. rewrite E. reflexivity.
    + change (0 * L) with 0 in E. rewrite E. cbn [bind]. destruct s' as [[[yy yy1] yy2] yy3]. cbn [bind]. rewrite R1 by lia. reflexivity.
  - cbn [bind]. specialize (R1 0 (u_yinit f) ltac:(lia)). change (0 * L) with 0 in R1. rewrite R1. reflexivity.
Qed.
(** a search that stops at the first vector containing 7, writing the start index *)
Definition find_unit : unroller_unit (list Z) Z :=
  let u := map_unit 4 [0; 0; 0; 0] (fun _ xs _ => xs) in
  {| u_func := u_func u; u_yinit := u_yinit u; u_store := (fun i y yy => if existsb (Z.eqb 7) yy then Some ([i], false) else Some (y, true)); u_mask_store := u_mask_store u; u_reduce := u_reduce u; u_reduce3 := u_reduce3 u |}.
Example C70_ex_short : let x := map Z.of_nat (seq 0 27) ++ [7] in
  unroller1 find_unit 0 0 4 4 false [] [] x [99] 28 = Some [4] /\
  (forall j yy, 0 <= j <= 1 -> u_store find_unit (j * 4) (if j <? 2 then [99] else [4]) (u_func find_unit (j * 4) (firstn 4 (skipn (Z.to_nat (j * 4)) x)) yy) = Some (if j + 1 <? 2 then [99] else [4], j <? 1)).
Proof. split; [vm_compute; reflexivity|]. intros j yy Hj. assert (j = 0 \/ j = 1) as [-> | ->] by lia; vm_compute; reflexivity. Qed.
