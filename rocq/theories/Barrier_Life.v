From Coq Require Import ZArith List Lia Bool.
From Verif Require Import Word Word_Proofs Pool_Model Pool_Steal Barrier_Model Barrier_Spec Barrier_Proofs.
Import ListNotations.
Local Open Scope Z_scope.

(** the config each worker holds in successive epochs *)
Fixpoint cseq (cfg : config) (ops : list pool_op) : list config :=
  match ops with
  | [] => [cfg]
  | ORun :: k => cfg :: cseq cfg k
  | OSend c :: k => cfg :: c :: cseq c k
  end.

Fixpoint cok (prev : config) (cs : list config) (rs : list round) {struct rs} : Prop :=
  match rs with
  | [] => exists c, cs = [c]
  | r :: rs' =>
    match cs with
    | c :: cs' => r_wait r = c_wait prev /\ r_barrier r = c_barrier c /\
        (exists t, cs' = (match r_latch r with Some x => x | None => c end) :: t) /\ cok c cs' rs'
    | [] => False
    end
  end.

Lemma cseq_head cfg ops : exists t, cseq cfg ops = cfg :: t.
Proof. destruct ops as [|[|c] k]; cbn; eauto. Qed.

Lemma cok_rounds ops : forall cfg, cok cfg (cseq cfg ops) (rounds_of cfg ops).
Proof.
  induction ops as [|[|c] k IH]; intros cfg; cbn [rounds_of cseq cok r_wait r_barrier r_latch].
  - eauto.
  - repeat split; auto. apply cseq_head.
  - repeat split; eauto. apply cseq_head.
Qed.

Lemma cok_nth rs : forall prev cs, cok prev cs rs -> length cs = S (length rs) /\
  forall i, (i < length rs)%nat ->
    r_wait (nth i rs round0) = c_wait (nth i (prev :: cs) prev) /\
    r_barrier (nth i rs round0) = c_barrier (nth i cs prev) /\
    nth (S i) cs prev = match r_latch (nth i rs round0) with Some x => x | None => nth i cs prev end.
Proof.
  induction rs as [|r rs IH]; intros prev cs H; cbn [cok] in H.
  - destruct H as (c & ->). split; [reflexivity|]. cbn; intros; lia.
  - destruct cs as [|c cs]; [contradiction|]. destruct H as (H1 & H2 & (t & Ht) & H4).
    destruct (IH c cs H4) as [L N]. split; [cbn; lia|]. intros [|i] Hi.
    + cbn [nth]. split; [auto|]. split; [auto|]. rewrite Ht. reflexivity.
    + destruct (N i ltac:(cbn in Hi; lia)) as (N1 & N2 & N3). cbn [nth] in *. cbn in Hi.
      rewrite (nth_indep cs prev c) by lia. rewrite N1.
      split; [f_equal; destruct i; [reflexivity|apply nth_indep; lia]|]. split; [exact N2|].
      destruct cs as [|c' cs']; [cbn in L; lia|]. rewrite (nth_indep _ prev c) by (cbn [length] in *; lia). exact N3.
Qed.

Lemma cseq_exit cx ops : forall cfg, c_exit cfg = false -> Forall no_exit ops ->
  exists pre, cseq cfg (ops ++ [OSend cx]) = pre ++ [cx; cx] /\ Forall (fun c => c_exit c = false) pre.
Proof.
  induction ops as [|[|c] k IH]; intros cfg Hc Hf; cbn [app cseq].
  - exists [cfg]. cbn. split; [reflexivity|]. repeat constructor; auto.
  - inversion Hf; subst. destruct (IH cfg Hc H2) as (pre & E & F). exists (cfg :: pre). rewrite E. split; [reflexivity|constructor; auto].
  - inversion Hf as [|? ? H1 H2]; subst. cbn in H1. destruct (IH c H1 H2) as (pre & E & F). exists (cfg :: c :: pre). rewrite E. split; [reflexivity|repeat constructor; auto].
Qed.

Definition Cof (cfg : config) (ops : list pool_op) (e : Z) : config :=
  if e <=? 0 then cfg else nth (Z.to_nat (e - 1)) (cseq cfg ops) cfg.

Lemma lifetime_ok cfg ops cx : c_exit cfg = false -> Forall no_exit ops -> c_exit cx = true ->
  let ops' := ops ++ [OSend cx] in let rs := rounds_of cfg ops' in let C := Cof cfg ops' in let T := Z.of_nat (length rs) in
  1 <= T /\
  (forall e, 1 <= e <= T -> r_wait (round_at rs e) = c_wait (C (e - 1))) /\
  (forall e, 1 <= e <= T -> r_barrier (round_at rs e) = c_barrier (C e)) /\
  (forall e, 0 <= e <= T -> c_exit (C e) = (e =? T)) /\
  (forall e, 1 <= e <= T -> C (e + 1) = match r_latch (round_at rs e) with Some c => c | None => C e end) /\
  C 1 = C 0 /\ C 0 = cfg.
Proof.
  intros Hc Hf Hx ops' rs C T.
  destruct (cok_nth rs cfg (cseq cfg ops') (cok_rounds ops' cfg)) as [L N].
  destruct (cseq_exit cx ops cfg Hc Hf) as (pre & Epre & Fpre). fold ops' in Epre.
  assert (LT : Z.of_nat (length pre) = T - 1).
  { rewrite Epre in L. rewrite app_length in L. cbn in L. unfold T. lia. }
  assert (C0 : C 0 = cfg) by reflexivity.
  assert (CS : forall e, 1 <= e -> C e = nth (Z.to_nat (e - 1)) (cseq cfg ops') cfg).
  { intros e He. unfold C, Cof. destruct (Z.leb_spec e 0); [lia|reflexivity]. }
  assert (C1 : C 1 = cfg).
  { rewrite CS by lia. destruct (cseq_head cfg ops') as (t & ->). reflexivity. }
  split; [lia|]. split; [|split; [|split; [|split; [|split; [congruence|auto]]]]].
  - intros e He. unfold round_at. destruct (N (Z.to_nat (e - 1)) ltac:(unfold T in *; lia)) as (N1 & _). rewrite N1. f_equal.
    destruct (Z.eq_dec e 1) as [->|]; [reflexivity|]. rewrite CS by lia.
    replace (Z.to_nat (e - 1)) with (S (Z.to_nat (e - 1 - 1))) by lia. reflexivity.
  - intros e He. unfold round_at. destruct (N (Z.to_nat (e - 1)) ltac:(unfold T in *; lia)) as (_ & N2 & _). rewrite N2, CS by lia. reflexivity.
  - intros e He. destruct (Z.eq_dec e 0) as [->|]; [rewrite C0, Hc; symmetry; apply Z.eqb_neq; lia|].
    rewrite CS by lia. rewrite Epre. destruct (Z.eqb_spec e T) as [->|].
    + rewrite app_nth2 by lia. replace (Z.to_nat (T - 1) - length pre)%nat with 0%nat by lia. exact Hx.
    + rewrite app_nth1 by lia. rewrite Forall_forall in Fpre. apply Fpre. apply nth_In. lia.
  - intros e He. unfold round_at. destruct (N (Z.to_nat (e - 1)) ltac:(unfold T in *; lia)) as (_ & _ & N3).
    rewrite !CS by lia. rewrite <- N3. f_equal. lia.
Qed.
