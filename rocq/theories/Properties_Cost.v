(** C67: CostDistribution, the estimator behind the autotuner. *)
From Coq Require Import ZArith QArith Qfield List Lia Lqa Bool Arith.
From Verif Require Import Stats_Model Stats_Proofs Cost_Model Cost_Proofs.
Import ListNotations.
Local Open Scope Q_scope.

(** Specification. A history is legal if every EstimateCost comes after at least
    one Notify with a non-negative cost. [costs]: the non-negative costs notified. *)
Fixpoint legal (seen : bool) (ops : list cop) : Prop :=
  match ops with
  | [] => True
  | CNotify x :: r => legal (seen || Qle_bool 0 x) r
  | CEstimate :: r => seen = true /\ legal seen r
  end.
Definition bounds_costs (lo hi : Q) (ops : list cop) : Prop := forall x, In (CNotify x) ops -> 0 <= x -> lo <= x /\ x <= hi.
Definition has_cost (ops : list cop) : Prop := exists x, In (CNotify x) ops /\ 0 <= x.
Definition is_notify (o : cop) : bool := match o with CNotify _ => true | CEstimate => false end.

Lemma run_ok sqrt lo hi : (forall x, 0 <= sqrt x) -> 0 <= lo -> forall ops seen c,
  CI lo hi seen c -> legal seen ops -> bounds_costs lo hi ops ->
  exists out c', c_run sqrt ops c = Some (out, c') /\ Forall (fun m => lo <= m /\ m <= hi) out /\
    length out = length (filter (fun o => negb (is_notify o)) ops) /\
    CI lo hi (seen || existsb (fun o => match o with CNotify x => Qle_bool 0 x | CEstimate => false end) ops) c'.
Proof.
  intros HS HL. induction ops as [|[x|] ops IH]; intros seen c HC HLg HB; cbn [c_run legal existsb filter is_notify negb] in *.
  - exists [], c. rewrite orb_false_r. auto.
  - destruct (notify_ok sqrt HS lo hi HL x c seen HC) as (c1 & -> & C1 & _); [intros G; apply HB; [now left|exact G]|]. cbn [bind].
    destruct (IH _ c1 C1 HLg) as (out & c2 & -> & F & L & C2); [intros y Hy; apply HB; now right|]. exists out, c2. rewrite orb_assoc. auto.
  - destruct HLg as (-> & HLg). destruct (estimate_ok sqrt HS lo hi HL c HC) as (m & c1 & -> & Hm & C1). cbn [bind].
    destruct (IH true c1 C1 HLg) as (out & c2 & -> & F & L & C2); [intros y Hy; apply HB; now right|]. cbn [bind]. exists (m :: out), c2.
    split; [reflexivity|]. split; [now constructor|]. split; [cbn [length]; now rewrite L|exact C2].
Qed.
Lemma init_ok lo hi g : length g = kMaxValues -> CI lo hi false (c_init g).
Proof. intros H. left. cbn. split; [reflexivity|]. split; [exact H|]. unfold kMaxValues. split; [lia|]. split; [discriminate|constructor]. Qed.

(** C67: for every legal history, whatever the uninitialized array holds: no array
    access is out of range and no assertion fails, and every estimate lies between
    the least and the greatest non-negative cost notified before it. *)
Theorem C67_estimate_within_costs sqrt g ops lo hi : (forall x, 0 <= sqrt x) -> length g = kMaxValues -> legal false ops -> 0 <= lo -> bounds_costs lo hi ops ->
  exists out c, c_run sqrt ops (c_init g) = Some (out, c) /\
    length out = length (filter (fun o => negb (is_notify o)) ops) /\ Forall (fun m => lo <= m /\ m <= hi) out /\
    (has_cost ops -> exists m c', c_estimate sqrt c = Some (m, c') /\ lo <= m /\ m <= hi).
Proof.
  intros HS HG HLg HL HB. destruct (run_ok sqrt lo hi HS HL ops false (c_init g) (init_ok lo hi g HG) HLg HB) as (out & c & E & F & L & C).
  exists out, c. split; [exact E|]. split; [exact L|]. split; [exact F|]. intros (x & Hx & Px).
  assert (X : existsb (fun o => match o with CNotify x => Qle_bool 0 x | CEstimate => false end) ops = true).
  { apply existsb_exists. exists (CNotify x). split; [exact Hx|]. now apply qle_iff. }
  rewrite X in C. cbn [orb] in C. destruct (estimate_ok sqrt HS lo hi HL c C) as (m & c' & E' & H1 & _). exists m, c'. split; [exact E'|exact H1].
Qed.
(** if all costs are equal, that is the estimate *)
Theorem C67_constant_cost sqrt g ops k : (forall x, 0 <= sqrt x) -> length g = kMaxValues -> legal false ops -> 0 <= k ->
  (forall x, In (CNotify x) ops -> 0 <= x -> x == k) -> exists out c, c_run sqrt ops (c_init g) = Some (out, c) /\ Forall (fun m => m == k) out.
Proof.
  intros HS HG HLg HK HA. destruct (C67_estimate_within_costs sqrt g ops k k HS HG HLg HK) as (out & c & E & _ & F & _).
  { intros x Hx Px. rewrite (HA x Hx Px). split; apply Qle_refl. }
  exists out, c. split; [exact E|]. eapply Forall_impl; [|exact F]. cbn. intros m (A & B). lra.
Qed.
(** a negative cost changes nothing *)
Theorem C67_negative_ignored sqrt x c : x < 0 -> c_notify sqrt x c = Some c.
Proof. intros H. unfold c_notify. now rewrite (qlt_intro x 0 H). Qed.
(** Bounded influence: once an estimate was made (or 14 costs were stored), there
    are thresholds on both sides of the current estimate such that it does not
    matter by how much a cost lies outside them. *)
Theorem C67_outliers_clamped sqrt g ops out c m c' : (forall x, 0 <= sqrt x) -> length g = kMaxValues -> legal false ops -> has_cost ops ->
  c_run sqrt ops (c_init g) = Some (out, c) -> c_estimate sqrt c = Some (m, c') ->
  exists L U, L <= m /\ m <= U /\
    (forall x y, 0 <= x -> 0 <= y -> (U < x /\ U < y) \/ (x < L /\ y < L) -> c_notify sqrt x c' = c_notify sqrt y c').
Proof.
  intros HS HG HLg HC E1 E2.
  assert (B : exists lo hi, 0 <= lo /\ bounds_costs lo hi ops).
  { clear - ops. exists 0. induction ops as [|[x|] ops (hi & _ & B)]; [exists 0; split; [lra|intros x []]| |].
    - exists (qmax hi x). split; [lra|]. intros y [Hy|Hy] Py; [injection Hy as ->|specialize (B y Hy Py)]; destruct (qmax_cases hi y) as [(Em & ?)|(Em & ?)]; try destruct (qmax_cases hi x) as [(Ex & ?)|(Ex & ?)]; try rewrite Em; try rewrite Ex; lra.
    - exists hi. split; [lra|]. intros y [Hy|Hy] Py; [discriminate|auto]. }
  destruct B as (lo & hi & HL & HB).
  destruct (run_ok sqrt lo hi HS HL ops false (c_init g) (init_ok lo hi g HG) HLg HB) as (out0 & c0 & E & F & _ & C). rewrite E in E1. injection E1 as -> ->.
  destruct HC as (x & Hx & Px).
  assert (X : existsb (fun o => match o with CNotify x => Qle_bool 0 x | CEstimate => false end) ops = true).
  { apply existsb_exists. exists (CNotify x). split; [exact Hx|]. now apply qle_iff. }
  rewrite X in C. cbn [orb] in C. clear X x Hx Px.
  assert (W : exists c1, (if is_online c then Some c else warm_up sqrt c) = Some c1 /\ ONL lo hi c1 True).
  { destruct C as [(O0 & La & Hn & Hs & HF)|HO].
    - unfold is_online. rewrite O0. change (qlt 0 0) with false. cbv iota. apply warm_up_ok; auto. specialize (Hs eq_refl). lia.
    - rewrite (onl_online lo hi c HO). exists c. auto. }
  destruct W as (c1 & EW & O). unfold c_estimate in E2. rewrite EW in E2. cbn [bind] in E2.
  pose proof (onl_online lo hi c1 O) as ON.
  destruct O as (m1 & m2 & mean & sd & lower & upper & r6 & r7 & r8 & r9 & ra & rb & rc & rd & EV & _ & _ & _ & _ & _ & _ & L & U).
  unfold get in E2. rewrite EV in E2. cbn [nth_error bind] in E2. injection E2 as <- <-. exists lower, upper. split; [exact L|]. split; [exact U|].
  intros x y Px Py HXY. unfold c_notify. rewrite (qlt_intro_f x 0 Px), (qlt_intro_f y 0 Py), ON. unfold online_notify. rewrite EV. unfold get. cbn [nth_error bind].
  assert (EQ : qmin (qmax lower x) upper = qmin (qmax lower y) upper).
  { unfold qmin, qmax. destruct HXY as [(A & B)|(A & B)].
    - destruct (Qle_bool x lower) eqn:G1; [apply qle_iff in G1; lra|]. destruct (Qle_bool y lower) eqn:G2; [apply qle_iff in G2; lra|].
      destruct (Qle_bool x upper) eqn:G3; [apply qle_iff in G3; lra|]. destruct (Qle_bool y upper) eqn:G4; [apply qle_iff in G4; lra|reflexivity].
    - destruct (Qle_bool x lower) eqn:G1; [|apply qle_false in G1; lra]. destruct (Qle_bool y lower) eqn:G2; [|apply qle_false in G2; lra]. reflexivity. }
  now rewrite EQ.
Qed.
(** an estimate without any cost fails an assertion *)
Theorem C67_estimate_needs_cost sqrt g : c_estimate sqrt (c_init g) = None.
Proof. reflexivity. Qed.

(** A limitation: after fourteen zero costs, every estimate is zero, whatever
    positive costs follow. *)
Definition all_zero (c : cost) : Prop := exists m1 m2 mean sd lower upper r, c_values c = m1 :: m2 :: mean :: sd :: lower :: upper :: r /\
  m1 == 0 /\ m2 == 0 /\ mean == 0 /\ sd == 0 /\ lower == 0 /\ upper == 0 /\ 0 <= c_online c.
Lemma zero_step sqrt x c : (forall x, x == 0 -> sqrt x == 0) -> all_zero c -> exists c', online_notify sqrt x c = Some c' /\ all_zero c' /\ 0 < c_online c'.
Proof.
  intros HS (m1 & m2 & mean & sd & lower & upper & r & EV & Z1 & Z2 & Z3 & Z4 & Z5 & Z6 & ON). destruct c as [num n vals]. cbn [c_values c_online] in *. subst vals.
  assert (X : qmin (qmax lower x) upper == 0).
  { destruct (qmax_cases lower x) as [(-> & ?)|(-> & ?)]; [destruct (qmin_cases lower upper) as [(-> & ?)|(-> & ?)]|destruct (qmin_cases x upper) as [(-> & ?)|(-> & ?)]]; lra. }
  unfold online_notify. cbn [c_values c_online c_num get nth_error bind set length Nat.ltb Nat.leb firstn skipn app].
  set (xc := qmin (qmax lower x) upper) in *. clearbody xc.
  set (dn := (xc - m1) / (n + 1)). assert (D : dn == 0) by (unfold dn; rewrite X, Z1; field; lra). clearbody dn.
  set (m2' := m2 + (xc - m1) * n * dn). assert (M2 : m2' == 0) by (unfold m2'; rewrite X, Z1, Z2, D; ring). clearbody m2'.
  set (st := sqrt (m2' / qmax 1 n)). assert (ST : st == 0).
  { apply HS. rewrite M2. unfold Qdiv. ring. }
  clearbody st. eexists. split; [reflexivity|]. cbn [c_online]. split; [|lra].
  unfold all_zero. cbn [c_values c_online]. do 7 eexists. split; [reflexivity|]. repeat split; lra.
Qed.
Theorem C67_zero_is_absorbing sqrt g xs : (forall x, 0 <= sqrt x) -> (forall x, x == 0 -> sqrt x == 0) -> length g = kMaxValues ->
  exists out c, c_run sqrt (repeat (CNotify 0) kMaxValues ++ map CNotify xs ++ [CEstimate]) (c_init g) = Some (out, c) /\ match out with [m] => m == 0 | _ => False end.
Proof.
  intros HP HS HG. unfold kMaxValues in HG. do 14 (destruct g as [|? g]; [discriminate HG|]). destruct g; [|discriminate HG]. clear HG.
  assert (ALL : forall l c, all_zero c -> 0 < c_online c \/ l <> [] -> exists c', online_all sqrt l c = Some c' /\ all_zero c' /\ 0 < c_online c').
  { induction l as [|x l IH]; intros c Z N; cbn [online_all]; [destruct N as [N|N]; [eauto|congruence]|].
    destruct (zero_step sqrt x c HS Z) as (c1 & -> & Z1 & N1). cbn [bind]. apply IH; auto. }
  assert (W : exists c', warm_up sqrt {| c_num := 14; c_online := 0; c_values := repeat 0 14 |} = Some c' /\ all_zero c' /\ 0 < c_online c').
  { unfold warm_up. cbn [c_values c_num c_online].
    let r := eval vm_compute in (remove_outliers (repeat 0 14) 14) in replace (remove_outliers (repeat 0 14) 14) with r by (vm_compute; reflexivity).
    cbn [bind]. 
    match goal with |- context [sample_mean ?c] => set (c0 := c) end.
    let r := eval vm_compute in (sample_mean c0) in replace (sample_mean c0) with r by (vm_compute; reflexivity). cbn [bind].
    match goal with |- context [sample_variance c0 ?m] => let r := eval vm_compute in (sample_variance c0 m) in replace (sample_variance c0 m) with r by (vm_compute; reflexivity) end.
    cbn [bind set length Nat.ltb Nat.leb firstn skipn app repeat]. rewrite (proj2 (Qeq_bool_iff (sqrt _) 0)) by (apply HS; reflexivity). cbv iota.
    match goal with |- context [online_all sqrt ?l ?c] => destruct (ALL l c) as (c1 & -> & Z1 & N1) end;
      [unfold all_zero; cbn [c_values c_online]; do 7 eexists; split; [reflexivity|]; repeat split; discriminate|right; discriminate|]. cbn [bind].
    unfold is_online. rewrite (qlt_intro 0 (c_online c1) N1). cbn [assert]. eauto. }
  destruct W as (c1 & EW & Z1 & N1). unfold kMaxValues. cbn [repeat app c_run].
  do 13 (match goal with |- context [bind (c_notify sqrt 0 ?c) _] => let r := eval vm_compute in (c_notify (fun _ => 0) 0 c) in replace (c_notify sqrt 0 c) with r by reflexivity end; cbn [bind]).
  unfold c_notify at 1, is_online at 1. cbn [c_online c_num c_values]. change (qlt 0 0) with false. cbv iota.
  cbn [set bind length Nat.ltb Nat.leb firstn skipn app c_num c_values]. change (13 =? 13)%nat with true. change (14 =? kMaxValues)%nat with true. change (14 <=? kMaxValues)%nat with true. cbn [assert]. cbv iota.
  cbn [repeat] in EW. unfold kMaxValues. cbn [assert].
  rewrite EW. cbn [bind]. clear EW. revert c1 Z1 N1. induction xs as [|x xs IH]; intros c Z N; cbn [map app c_run].
  - unfold c_estimate, is_online. rewrite (qlt_intro 0 (c_online c) N). cbn [bind]. destruct Z as (m1 & m2 & mean & sd & lower & upper & r & EV & _ & _ & Z3 & _).
    unfold get. rewrite EV. cbn [nth_error bind]. do 2 eexists. split; [reflexivity|exact Z3].
  - unfold c_notify at 1. unfold is_online. rewrite (qlt_intro 0 (c_online c) N). destruct (qlt x 0); cbn [bind]; [now apply IH|].
    destruct (zero_step sqrt x c HS Z) as (c2 & -> & Z2 & N2). cbn [bind]. now apply IH.
Qed.

Print Assumptions C67_estimate_within_costs.
Print Assumptions C67_constant_cost.
Print Assumptions C67_negative_ignored.
Print Assumptions C67_outliers_clamped.
Print Assumptions C67_estimate_needs_cost.
Print Assumptions C67_zero_is_absorbing.

(** Examples *)
Definition g14 : list Q := repeat 999 14.
Example C67_ex_history : exists out c, c_run (fun _ => 1) (CNotify 3 :: CNotify (-(1)) :: CNotify 5 :: CEstimate :: CNotify 100 :: CEstimate :: nil) (c_init g14) = Some (out, c) /\
  match out with [a; b] => 3 <= a /\ a < b /\ b < 5 | _ => False end.
Proof. eexists. eexists. split; [vm_compute; reflexivity|]. vm_compute. repeat split; discriminate. Qed.
Example C67_ex_hyps : legal false (CNotify 3 :: CEstimate :: nil) /\ has_cost (CNotify 3 :: CEstimate :: nil) /\ bounds_costs 3 3 (CNotify 3 :: CEstimate :: nil).
Proof.
  split; [repeat split|]. split; [exists 3; split; [now left|discriminate]|]. intros x [E|[E|[]]] _; [injection E as <-; split; apply Qle_refl|discriminate].
Qed.
