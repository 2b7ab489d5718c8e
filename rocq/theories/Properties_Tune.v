(** Property theorems C23, C24 (hwy/auto_tune.h). *)
From Coq Require Import ZArith List Lia Bool.
From Verif Require Import Word Word_Proofs Vec_Model Vec_Proofs Tune_Model Tune_Spec Tune_Proofs.
Import ListNotations.
Local Open Scope Z_scope.

(** C23: after any history [h] of Skip calls on live positions, Next from a live
    position is the cyclically next live one. *)
Theorem C23_next : forall num h (live : Z -> Prop) pos, 1 <= num < 2 ^ 14 -> rotation num h live -> live pos ->
  exists links n, skips (nws_ctor num) h = Some links /\ nws_next links pos = Some n /\ cyc_next live pos n.
Proof.
  intros num h S pos Hn HR Hp. destruct (skips_ok num h S Hn HR) as (links & E & I). destruct (linv_next num links S pos I Hp) as (n & E2 & C). eauto.
Qed.
Print Assumptions C23_next.
Theorem C23_never_empty : forall num h (live : Z -> Prop), 1 <= num < 2 ^ 14 -> rotation num h live -> exists p, live p.
Proof. intros num h S Hn HR. destruct (skips_ok num h S Hn HR) as (links & E & I). apply I. Qed.
Print Assumptions C23_never_empty.
(** every live position is reached: iterating Next num times from any live
    position visits every live one *)
Fixpoint iter_next (n : nat) (links : list Z) (pos : Z) : option Z :=
  match n with O => Some pos | S k => match nws_next links pos with Some p => iter_next k links p | None => None end end.
Lemma reach_up num links (live : Z -> Prop) q : linv num links live -> live q ->
  forall (d : nat) p, live p -> p <= q -> q - p <= Z.of_nat d -> exists n, iter_next n links p = Some q.
Proof.
  intros I Hq. induction d as [|d IH]; intros p Hp Hle Hd; [exists O; cbn; f_equal; lia|].
  destruct (Z.eq_dec p q) as [->|NE]; [exists O; reflexivity|].
  destruct (linv_next num links live p I Hp) as (n & E & Hn & C). destruct C as [(C1 & C2)|(C1 & C2)].
  - specialize (C2 q Hq ltac:(lia)). destruct (IH n Hn C2 ltac:(lia)) as (k & Ek). exists (S k). cbn [iter_next]. now rewrite E.
  - specialize (C1 q Hq). lia.
Qed.
Lemma reach_wrap num links (live : Z -> Prop) q : linv num links live -> live q ->
  forall (d : nat) p, live p -> num - p <= Z.of_nat d -> exists n, iter_next n links p = Some q.
Proof.
  intros I Hq. assert (HB : forall p, live p -> 0 <= p < num) by apply I. induction d as [|d IH]; intros p Hp Hd; [specialize (HB p Hp); lia|].
  destruct (linv_next num links live p I Hp) as (n & E & Hn & C). destruct C as [(C1 & C2)|(C1 & C2)].
  - destruct (IH n Hn ltac:(lia)) as (k & Ek). exists (S k). cbn [iter_next]. now rewrite E.
  - specialize (C2 q Hq). destruct (reach_up num links live q I Hq (Z.to_nat (q - n)) n Hn C2 ltac:(lia)) as (k & Ek). exists (S k). cbn [iter_next]. now rewrite E.
Qed.
Theorem C23_visits_all : forall num h (live : Z -> Prop) p q, 1 <= num < 2 ^ 14 -> rotation num h live -> live p -> live q ->
  exists links n, skips (nws_ctor num) h = Some links /\ iter_next n links p = Some q.
Proof.
  intros num h S p q Hn HR Hp Hq. destruct (skips_ok num h S Hn HR) as (links & E & I).
  destruct (reach_wrap num links S q I Hq (Z.to_nat num) p Hp) as (n & En); [assert (0 <= p) by (apply I; auto); lia|]. eauto.
Qed.
Print Assumptions C23_visits_all.
Example C23_ex : exists links, skips (nws_ctor 5) [4; 1; 2] = Some links /\ nws_next links 0 = Some 3 /\ nws_next links 3 = Some 0 /\
  skips (nws_ctor 2) [1; 0] = Some (match skips (nws_ctor 2) [0] with Some l => l | None => [] end).
Proof. eexists. split; [vm_compute; reflexivity|]. repeat split; vm_compute; reflexivity. Qed.
Example C23_ex_rotation : rotation 3 [1] (fun p => 0 <= p < 3 /\ p <> 1).
Proof. apply rot_skip; [constructor|lia|]. exists 0. lia. Qed.

(** C24.  [D], [notify], [estimate] are any cost estimator, [elt] any strict
    weak order on its results. *)
Section C24.
Context {D E : Type}.
Variables (d0 : D) (notify : D -> Z -> D) (estimate : D -> D * E) (elt : E -> E -> bool).
Variables (zero highest : E) (scale : E -> E) (kMin : Z).
Hypothesis HK : 1 <= kMin.
Hypothesis elt_irrefl : forall e, elt e e = false.
Hypothesis elt_trans : forall a b c, elt a b = true -> elt b c = true -> elt a c = true.
Hypothesis elt_negtrans : forall a b c, elt a b = false -> elt b c = false -> elt a c = false.

(** for any costs, tuning never accesses a vector out of bounds, and after
    num * (3*kMin/2+1) measurements a valid candidate has been chosen whose
    estimate no other candidate's is below *)
Theorem C24_terminates : forall num costs, 1 <= num < 2 ^ 14 -> num * (3 * kMin / 2 + 1) <= zlen costs ->
  (forall d, elt (snd (estimate d)) highest = true) -> (forall d, snd (estimate (fst (estimate d))) = snd (estimate d)) ->
  exists t i di, tune notify estimate elt zero highest scale kMin (set_candidates d0 zero num) costs = Some t /\
    t_best t = Some i /\ 0 <= i < num /\ rd (t_costs t) i = Some di /\
    forall j dj, rd (t_costs t) j = Some dj -> elt (snd (estimate dj)) (snd (estimate di)) = false.
Proof.
  intros num cs Hn HL HH HS.
  destruct (tune_ok notify estimate elt zero highest scale kMin elt_irrefl elt_trans elt_negtrans num cs Hn _ _ _ (tinv_init d0 zero kMin HK num Hn)) as (t & E1 & H).
  exists t. destruct H as [(_ & (h' & S' & I) & P)|(i & di & A & B & C)].
  - exfalso. cbn [set_candidates t_rounds t_idx] in P. destruct I as (_ & _ & _ & _ & _ & IL & IX & IR & _).
    assert (0 <= t_idx t < num) by (now apply IL). nia.
  - destruct (C HH HS) as (C1 & C2). exists i, di. auto.
Qed.
(** the first kMin rounds measure every candidate once per round, in order *)
Theorem C24_round_robin : forall num costs, 1 <= num < 2 ^ 14 -> zlen costs < kMin * num ->
  exists t, tune notify estimate elt zero highest scale kMin (set_candidates d0 zero num) costs = Some t /\
    t_best t = None /\ t_rounds t = zlen costs / num /\ next_config t = zlen costs mod num.
Proof.
  intros num cs Hn HL. destruct (tune_rr d0 notify estimate elt zero highest scale kMin ltac:(assumption) elt_irrefl elt_trans elt_negtrans num Hn cs HL) as (t & S & E1 & I & R & X).
  exists t. split; [exact E1|]. split; [apply I|]. split; assumption.
Qed.
(** at any later point the candidate to measure is one not excluded so far;
    NotifyCost moves on to the cyclically next one and excludes the measured
    candidate only when its estimate exceeds the threshold *)
Theorem C24_step : forall num costs t cost, 1 <= num < 2 ^ 14 ->
  tune notify estimate elt zero highest scale kMin (set_candidates d0 zero num) costs = Some t -> t_best t = None ->
  exists h (live : Z -> Prop) d t', rotation num h live /\ skips (nws_ctor num) h = Some (t_list t) /\ live (next_config t) /\
    rd (t_costs t) (next_config t) = Some d /\
    notify_cost notify estimate elt zero highest scale kMin t cost = Some t' /\ cyc_next live (next_config t) (next_config t') /\
    exists h', skips (nws_ctor num) h' = Some (t_list t') /\
      h' = if (kMin <=? t_rounds t) && elt (t_skip t) (snd (estimate (notify d cost))) then next_config t :: h else h.
Proof.
  intros num cs t cost Hn ET HB.
  destruct (tune_ok notify estimate elt zero highest scale kMin elt_irrefl elt_trans elt_negtrans num cs Hn _ _ _ (tinv_init d0 zero kMin HK num Hn)) as (t1 & E1 & H).
  rewrite ET in E1. injection E1 as <-. destruct H as [(_ & (h & S & I) & _)|(i & di & A & _)]; [|congruence].
  destruct (step_ok notify estimate elt zero highest scale kMin elt_irrefl elt_trans elt_negtrans num h S t cost Hn I) as (d & t' & Ed & E2 & CN & RD & h' & S' & HS & HR & HK' & H).
  exists h, S, d, t'. split; [apply I|]. split; [apply I|]. split; [apply I|]. split; [exact Ed|]. split; [exact E2|]. split; [exact CN|].
  exists h'. split; [exact HK'|]. unfold skip_cond in HS. destruct (Z.leb_spec kMin (t_rounds t)) as [Hge|Hlt]; cbn [andb].
  - destruct (elt (t_skip t) (snd (estimate (notify d cost)))); auto.
  - cbn [snd] in HS. destruct I as (_ & _ & _ & _ & _ & _ & _ & _ & IK). destruct (IK Hlt) as (IK1 & _). rewrite IK1, elt_irrefl in HS. auto.
Qed.
End C24.
Print Assumptions C24_terminates.
Print Assumptions C24_round_robin.
Print Assumptions C24_step.
(** a concrete estimator (running minimum) satisfies the hypotheses; candidate 1
    costs 5, candidate 0 costs 100, candidate 2 costs 6; kMin = 2 *)
Definition ex_notify (d : Z) (c : Z) : Z := Z.min d c.
Definition ex_estimate (d : Z) : Z * Z := (d, Z.min d (2 ^ 62)).
Example C24_ex : let run costs := option_map (fun t => (t_best t, t_idx t)) (tune ex_notify ex_estimate Z.ltb 0 (2 ^ 63) (fun x => x * 5 / 4) 2 (set_candidates (2 ^ 62) 0 3) costs) in
  run [100; 5; 6; 100; 5; 6] = Some (None, 0) /\ run [100; 5; 6; 100; 5; 6; 100; 5; 6] = Some (None, 1) /\ (* 0 was excluded *)
  run [100; 5; 6; 100; 5; 6; 100; 5; 6; 5; 6; 1; 1] = Some (Some 1, 1).
Proof. repeat split; vm_compute; reflexivity. Qed.
Example C24_ex_hyp : (forall e, (e <? e)%Z = false) /\ (forall d, Z.ltb (snd (ex_estimate d)) (2 ^ 63) = true) /\ (forall d, snd (ex_estimate (fst (ex_estimate d))) = snd (ex_estimate d)).
Proof. split; [intros; apply Z.ltb_irrefl|]. split; intros; cbn [ex_estimate fst snd]; [apply Z.ltb_lt; lia|reflexivity]. Qed.

(** C46 is false of debug builds: Candidates(), documented as "typically called
    after Best() is non-null", aborts exactly then. *)
Theorem C46_candidates_after_best_refuted : forall (D E : Type) (t : @tuner D E) i, t_best t = Some i -> candidates_debug t = None.
Proof. intros D E t i H. unfold candidates_debug, has_candidates_debug. now rewrite H. Qed.
Print Assumptions C46_candidates_after_best_refuted.
(** Before Best() is known the call works. *)
Theorem C46_candidates_before_best_partial : forall (D E : Type) (t : @tuner D E), t_best t = None -> 0 < t_num t -> candidates_debug t = Some (t_num t).
Proof. intros D E t H HN. unfold candidates_debug, has_candidates_debug. rewrite H. destruct (Z.eqb_spec (t_num t) 0); [lia|reflexivity]. Qed.
Print Assumptions C46_candidates_before_best_partial.
Example C46_ex : exists t, tune ex_notify ex_estimate Z.ltb 0 (2 ^ 63) (fun x => x * 5 / 4) 2 (set_candidates (2 ^ 62) 0 1) [3;3;3;3] = Some t /\ t_best t = Some 0 /\ candidates_debug t = None.
Proof. eexists. split; [vm_compute; reflexivity|]. split; reflexivity. Qed.
