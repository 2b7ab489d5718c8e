(** Proofs about Stats. *)
From Coq Require Import ZArith QArith Qfield Qminmax List Lia Lqa Bool Setoid.
From Verif Require Import Word Word_Proofs Stats_Model Stats_Spec.
Import ListNotations.
Local Open Scope Q_scope.

Definition ps (k : Q -> Q) (l : list Q) : Q := qsum (map k l).
Definition p1 (x : Q) := x.
Definition p2 (x : Q) := x * x.
Definition p3 (x : Q) := x * x * x.
Definition p4 (x : Q) := x * x * x * x.

Lemma qsum_app l l' : qsum (l ++ l') == qsum l + qsum l'.
Proof. induction l as [|x l IH]; cbn [app]; [change (qsum []) with 0; ring|]. change (x + qsum (l ++ l') == x + qsum l + qsum l'). rewrite IH. ring. Qed.
Lemma ps_app k l l' : ps k (l ++ l') == ps k l + ps k l'.
Proof. unfold ps. rewrite map_app. apply qsum_app. Qed.
Lemma ps_cons k x l : ps k (x :: l) == k x + ps k l.
Proof. reflexivity. Qed.
Lemma qlen_app l l' : qlen (l ++ l') == qlen l + qlen l'.
Proof. unfold qlen. rewrite app_length, Nat2Z.inj_add, inject_Z_plus. reflexivity. Qed.
Lemma qlen_cons x l : qlen (x :: l) == 1 + qlen l.
Proof. unfold qlen. cbn [length]. rewrite Nat2Z.inj_succ. unfold Z.succ. rewrite inject_Z_plus. change (inject_Z 1) with 1. ring. Qed.

(** the algebraic form of the central moments *)
Record form (n : Q) (l : list Q) (s : stats) : Prop := {
  f1 : ps p1 l == n * s_m1 s;
  f2 : ps p2 l == s_m2 s + n * s_m1 s * s_m1 s;
  f3 : ps p3 l == s_m3 s + 3 * s_m1 s * s_m2 s + n * s_m1 s * s_m1 s * s_m1 s;
  f4 : ps p4 l == s_m4 s + 4 * s_m1 s * s_m3 s + 6 * s_m1 s * s_m1 s * s_m2 s + n * s_m1 s * s_m1 s * s_m1 s * s_m1 s }.

Section S.
Context (log : Q -> Q).

Definition small (l : list Q) : Prop := (Z.of_nat (length l) <= 3037000499)%Z.

Record inv (l : list Q) (s : stats) : Prop := {
  iN : s_n s = Z.of_nat (length l);
  iF : form (q_of (s_n s)) l s;
  iL : s_log s == ps log l;
  iMin : forall x, In x l -> s_min s <= x;
  iMax : forall x, In x l -> x <= s_max s;
  iMin' : s_min s = flt_max \/ In (s_min s) l;
  iMax' : s_max s = - flt_max \/ In (s_max s) l;
  iMin2 : s_min s <= flt_max;
  iMax2 : - flt_max <= s_max s }.

Lemma qmin_cases a b : (qmin a b = a /\ a <= b) \/ (qmin a b = b /\ b <= a).
Proof. unfold qmin. destruct (Qle_bool a b) eqn:E; [left|right]; split; auto. now apply Qle_bool_iff. apply Qlt_le_weak, Qnot_le_lt. intros C. apply Qle_bool_iff in C. congruence. Qed.
Lemma qmax_cases a b : (qmax a b = a /\ b <= a) \/ (qmax a b = b /\ a <= b).
Proof. unfold qmax. destruct (Qle_bool b a) eqn:E; [left|right]; split; auto. now apply Qle_bool_iff. apply Qlt_le_weak, Qnot_le_lt. intros C. apply Qle_bool_iff in C. congruence. Qed.

Lemma inv_reset : inv [] s_reset.
Proof.
  split; cbn; auto; try contradiction; try reflexivity.
  - split; reflexivity.
  - apply Qle_refl.
  - apply Qle_refl.
Qed.

Lemma qz_nz n : (n <> 0)%Z -> ~ q_of n == 0.
Proof. intros H E. apply H. apply (inject_Z_injective n 0). exact E. Qed.
Lemma q_add a b : q_of (a + b) == q_of a + q_of b. Proof. unfold q_of. now rewrite inject_Z_plus. Qed.
Lemma q_mul a b : q_of (a * b) == q_of a * q_of b. Proof. unfold q_of. now rewrite inject_Z_mult. Qed.
Lemma q_sub a b : q_of (a - b) == q_of a - q_of b.
Proof. unfold Z.sub. rewrite q_add. unfold q_of. rewrite inject_Z_opp. reflexivity. Qed.

(** Notify *)
Lemma notify_form n x m1 m2 m3 m4 P1 P2 P3 P4 : ~ n == 0 ->
  P1 == (n - 1) * m1 -> P2 == m2 + (n - 1) * m1 * m1 -> P3 == m3 + 3 * m1 * m2 + (n - 1) * m1 * m1 * m1 ->
  P4 == m4 + 4 * m1 * m3 + 6 * m1 * m1 * m2 + (n - 1) * m1 * m1 * m1 * m1 ->
  let dn := (x - m1) / n in let d2 := (x - m1) * (n - 1) * dn in
  let m1' := m1 + dn in let m4' := m4 + dn * (dn * (d2 * (n * n - 3 * n + 3) + 6 * m2) - 4 * m3) in
  let m3' := m3 + dn * (d2 * (n - 2) - 3 * m2) in let m2' := m2 + d2 in
  x + P1 == n * m1' /\ x * x + P2 == m2' + n * m1' * m1' /\
  x * x * x + P3 == m3' + 3 * m1' * m2' + n * m1' * m1' * m1' /\
  x * x * x * x + P4 == m4' + 4 * m1' * m3' + 6 * m1' * m1' * m2' + n * m1' * m1' * m1' * m1'.
Proof.
  intros Hn E1 E2 E3 E4 dn d2 m1' m4' m3' m2'. rewrite E1, E2, E3, E4. unfold m1', m2', m3', m4', d2, dn.
  split; [field; exact Hn|]. split; [field; exact Hn|]. split; field; exact Hn.
Qed.

Lemma inv_notify l s x : inv l s -> small (x :: l) -> finite_float x -> inv (x :: l) (s_notify log x s).
Proof.
  intros [HN HF HL HMn HMx HMn' HMx' HMn2 HMx2] HS HX. unfold small in HS. cbn [length] in HS. rewrite Nat2Z.inj_succ in HS.
  assert (EN : swrap 64 (s_n s + 1) = (s_n s + 1)%Z) by (apply swrap_small; unfold in_s; lia).
  assert (EP : swrap 64 ((s_n s + 1) * (s_n s + 1) - 3 * (s_n s + 1) + 3) = ((s_n s + 1) * (s_n s + 1) - 3 * (s_n s + 1) + 3)%Z) by (apply swrap_small; unfold in_s; nia).
  split.
  - cbn [s_notify s_n]. rewrite EN, HN. cbn [length]. lia.
  - destruct HF as [F1 F2 F3 F4]. unfold s_notify. cbv zeta. cbn [s_n]. rewrite !EN, EP.
    set (n := (s_n s + 1)%Z) in *. assert (En : q_of (s_n s) == q_of n - 1) by (unfold n; rewrite q_add; change (q_of 1) with 1; ring).
    rewrite En in F1, F2, F3, F4.
    assert (Ep : q_of (n * n - 3 * n + 3) == q_of n * q_of n - 3 * q_of n + 3) by (rewrite q_add, q_sub, !q_mul; reflexivity).
    destruct (notify_form (q_of n) x _ _ _ _ _ _ _ _ ltac:(apply qz_nz; unfold n; lia) F1 F2 F3 F4) as (G1 & G2 & G3 & G4).
    split; cbn [s_m1 s_m2 s_m3 s_m4]; rewrite ps_cons; unfold p1, p2, p3, p4 in *; rewrite ?Ep; assumption.
  - cbn [s_notify s_log]. rewrite HL, ps_cons. ring.
  - cbn [s_notify s_min]. intros y [<-|Hy].
    + destruct (qmin_cases (s_min s) x) as [(-> & H)|(-> & H)]; [exact H|apply Qle_refl].
    + destruct (qmin_cases (s_min s) x) as [(-> & H)|(-> & H)]; [now apply HMn|]. eapply Qle_trans; [exact H|now apply HMn].
  - cbn [s_notify s_max]. intros y [<-|Hy].
    + destruct (qmax_cases (s_max s) x) as [(-> & H)|(-> & H)]; [exact H|apply Qle_refl].
    + destruct (qmax_cases (s_max s) x) as [(-> & H)|(-> & H)]; [now apply HMx|]. eapply Qle_trans; [now apply HMx|exact H].
  - cbn [s_notify s_min]. destruct (qmin_cases (s_min s) x) as [(-> & H)|(-> & H)]; [|right; now left].
    destruct HMn' as [E|E]; [now left|right; now right].
  - cbn [s_notify s_max]. destruct (qmax_cases (s_max s) x) as [(-> & H)|(-> & H)]; [|right; now left].
    destruct HMx' as [E|E]; [now left|right; now right].
  - cbn [s_notify s_min]. destruct (qmin_cases (s_min s) x) as [(-> & H)|(-> & H)]; [assumption|apply HX].
  - cbn [s_notify s_max]. destruct (qmax_cases (s_max s) x) as [(-> & H)|(-> & H)]; [assumption|apply HX].
Qed.

(** after a Notify, the extremes are samples (not the initial values), unless equal *)
(** Assimilate *)
Lemma merge_form n k a m2 m3 m4 b w2 w3 w4 P1 P2 P3 P4 R1 R2 R3 R4 : ~ n + k == 0 ->
  P1 == n * a -> P2 == m2 + n * a * a -> P3 == m3 + 3 * a * m2 + n * a * a * a -> P4 == m4 + 4 * a * m3 + 6 * a * a * m2 + n * a * a * a * a ->
  R1 == k * b -> R2 == w2 + k * b * b -> R3 == w3 + 3 * b * w2 + k * b * b * b -> R4 == w4 + 4 * b * w3 + 6 * b * b * w2 + k * b * b * b * b ->
  let N := n + k in let pr := n * k in let d := b - a in
  let m1' := (n * a + k * b) * (1 / N) in
  let m2' := m2 + w2 + d * d * pr * (1 / N) in
  let m3' := m3 + w3 + d * (d * d) * pr * (n - k) * (1 / (N * N)) + 3 * d * (n * w2 - k * m2) * (1 / N) in
  let m4' := m4 + (w4 + d * d * (d * d) * pr * (n * n - pr + k * k) / (N * N * N) +
              6 * (d * d) * (n * n * w2 + k * k * m2) * (1 / (N * N)) + 4 * d * (n * w3 - k * m3) * (1 / N)) in
  P1 + R1 == N * m1' /\ P2 + R2 == m2' + N * m1' * m1' /\
  P3 + R3 == m3' + 3 * m1' * m2' + N * m1' * m1' * m1' /\
  P4 + R4 == m4' + 4 * m1' * m3' + 6 * m1' * m1' * m2' + N * m1' * m1' * m1' * m1'.
Proof.
  intros Hn E1 E2 E3 E4 E5 E6 E7 E8 N pr d m1' m2' m3' m4'. rewrite E1, E2, E3, E4, E5, E6, E7, E8. unfold m1', m2', m3', m4', d, pr, N.
  split; [field; exact Hn|]. split; [field; exact Hn|]. split; field; exact Hn.
Qed.

Definition assim_flat (o s : stats) : stats :=
  let N := swrap 64 (s_n s + s_n o) in
  let pr := q_of (swrap 64 (s_n s * s_n o)) in
  let n2 := q_of (swrap 64 (s_n s * s_n s)) in
  let k2 := q_of (swrap 64 (s_n o * s_n o)) in
  let N2 := swrap 64 (N * N) in
  let d := s_m1 o - s_m1 s in
  {| s_n := N; s_min := qmin (s_min s) (s_min o); s_max := qmax (s_max s) (s_max o); s_log := s_log s + s_log o;
     s_m1 := (q_of (s_n s) * s_m1 s + q_of (s_n o) * s_m1 o) * (1 / q_of N);
     s_m2 := s_m2 s + s_m2 o + d * d * pr * (1 / q_of N);
     s_m3 := s_m3 s + s_m3 o + d * (d * d) * pr * q_of (swrap 64 (s_n s - s_n o)) * (1 / q_of N2) +
                3 * d * (q_of (s_n s) * s_m2 o - q_of (s_n o) * s_m2 s) * (1 / q_of N);
     s_m4 := s_m4 s + (s_m4 o + d * d * (d * d) * pr * (n2 - pr + k2) / (q_of N2 * q_of N) +
                6 * (d * d) * (n2 * s_m2 o + k2 * s_m2 s) * (1 / q_of N2) +
                4 * d * (q_of (s_n s) * s_m3 o - q_of (s_n o) * s_m3 s) * (1 / q_of N)) |}.
Lemma assim_other o s : s_assimilate (fun _ => o) s = if (swrap 64 (s_n s + s_n o) =? 0)%Z then s else assim_flat o s.
Proof. cbv beta iota zeta delta [s_assimilate assim_flat s_n s_min s_max s_log s_m1 s_m2 s_m3 s_m4]. destruct (_ =? 0)%Z; reflexivity. Qed.
Lemma assim_self s : s_assimilate (fun c => c) s = if (swrap 64 (s_n s + s_n s) =? 0)%Z then s else assim_flat s s.
Proof. cbv beta iota zeta delta [s_assimilate assim_flat s_n s_min s_max s_log s_m1 s_m2 s_m3 s_m4]. destruct (_ =? 0)%Z; reflexivity. Qed.

Lemma inv_flat l s l' o : inv l s -> inv l' o -> small (l ++ l') -> inv (l ++ l') (if (swrap 64 (s_n s + s_n o) =? 0)%Z then s else assim_flat o s).
Proof.
  intros [HN HF HL HMn HMx HMn' HMx' HMn2 HMx2] [GN GF GL GMn GMx GMn' GMx' GMn2 GMx2] HS. unfold small in HS. rewrite app_length, Nat2Z.inj_add in HS.
  assert (ET : swrap 64 (s_n s + s_n o) = (s_n s + s_n o)%Z) by (apply swrap_small; unfold in_s; lia).
  rewrite ET. destruct (Z.eqb_spec (s_n s + s_n o) 0) as [E0|E0].
  { assert (length l = 0%nat /\ length l' = 0%nat) as (L1 & L2) by lia.
    destruct l; [|discriminate]. destruct l'; [|discriminate]. now split. }
  unfold assim_flat. cbv zeta. rewrite ET. set (N := (s_n s + s_n o)%Z) in *.
  assert (W1 : swrap 64 (s_n s * s_n o) = (s_n s * s_n o)%Z) by (apply swrap_small; unfold in_s; nia).
  assert (W2 : swrap 64 (s_n s * s_n s) = (s_n s * s_n s)%Z) by (apply swrap_small; unfold in_s; nia).
  assert (W3 : swrap 64 (s_n o * s_n o) = (s_n o * s_n o)%Z) by (apply swrap_small; unfold in_s; nia).
  assert (W4 : swrap 64 (N * N) = (N * N)%Z) by (apply swrap_small; unfold in_s, N; nia).
  assert (W5 : swrap 64 (s_n s - s_n o) = (s_n s - s_n o)%Z) by (apply swrap_small; unfold in_s; lia).
  rewrite W1, W2, W3, W4, W5. split; cbn [s_n s_min s_max s_log s_m1 s_m2 s_m3 s_m4].
  - unfold N. rewrite HN, GN, app_length. lia.
  - destruct HF as [F1 F2 F3 F4], GF as [K1 K2 K3 K4].
    assert (EN : q_of N == q_of (s_n s) + q_of (s_n o)) by (unfold N; apply q_add).
    assert (NZ : ~ q_of (s_n s) + q_of (s_n o) == 0) by (rewrite <- EN; now apply qz_nz).
    destruct (merge_form _ _ _ _ _ _ _ _ _ _ _ _ _ _ _ _ _ _ NZ F1 F2 F3 F4 K1 K2 K3 K4) as (G1 & G2 & G3 & G4). cbv zeta in G1, G2, G3, G4.
    split; cbn [s_n s_min s_max s_log s_m1 s_m2 s_m3 s_m4]; rewrite ps_app, ?q_mul, ?q_sub, EN; assumption.
  - rewrite ps_app, HL, GL. reflexivity.
  - intros x Hx. apply in_app_or in Hx. destruct (qmin_cases (s_min s) (s_min o)) as [(-> & H)|(-> & H)]; destruct Hx as [Hx|Hx]; auto.
    + eapply Qle_trans; [exact H|now apply GMn].
    + eapply Qle_trans; [exact H|now apply HMn].
  - intros x Hx. apply in_app_or in Hx. destruct (qmax_cases (s_max s) (s_max o)) as [(-> & H)|(-> & H)]; destruct Hx as [Hx|Hx]; auto.
    + eapply Qle_trans; [now apply GMx|exact H].
    + eapply Qle_trans; [now apply HMx|exact H].
  - destruct (qmin_cases (s_min s) (s_min o)) as [(-> & H)|(-> & H)].
    + destruct HMn'; [now left|right; apply in_or_app; now left].
    + destruct GMn'; [now left|right; apply in_or_app; now right].
  - destruct (qmax_cases (s_max s) (s_max o)) as [(-> & H)|(-> & H)].
    + destruct HMx'; [now left|right; apply in_or_app; now left].
    + destruct GMx'; [now left|right; apply in_or_app; now right].
  - destruct (qmin_cases (s_min s) (s_min o)) as [(-> & H)|(-> & H)]; assumption.
  - destruct (qmax_cases (s_max s) (s_max o)) as [(-> & H)|(-> & H)]; assumption.
Qed.

Lemma inv_run h : small (samples h) -> Forall finite_float (samples h) -> inv (samples h) (s_run log h).
Proof.
  induction h as [|x h IH|h IH o IHo|h IH]; cbn [samples s_run]; intros HS HF.
  - apply inv_reset.
  - inversion HF; subst. apply inv_notify; auto. apply IH; auto. unfold small in *. cbn [length] in HS. lia.
  - apply Forall_app in HF as (H1 & H2). unfold small in *. rewrite app_length in HS.
    rewrite assim_other. apply inv_flat; [apply IH; auto; lia|apply IHo; auto; lia|unfold small; rewrite app_length; lia].
  - apply Forall_app in HF as (H1 & _). unfold small in *. rewrite app_length in HS.
    assert (I : inv (samples h) (s_run log h)) by (apply IH; auto; lia).
    rewrite assim_self. apply inv_flat; auto. unfold small; rewrite app_length; lia.
Qed.
End S.

(** ** from the algebraic form to the specification *)
Lemma map_sum k k' l : (forall x, k x == k' x) -> ps k l == ps k' l.
Proof. intros H. induction l as [|x l IH]; [reflexivity|]. rewrite !ps_cons, IH, H. reflexivity. Qed.
Lemma shift2 l m : ps (fun x => (x - m) ^ 2) l == ps p2 l - 2 * m * ps p1 l + qlen l * m * m.
Proof.
  induction l as [|x l IH]; [change (0 == 0 - 2 * m * 0 + 0 * m * m); ring|]. rewrite !ps_cons, IH, qlen_cons. unfold p1, p2.
  change ((x - m) ^ 2) with ((x - m) * (x - m)). ring.
Qed.
Lemma shift3 l m : ps (fun x => (x - m) ^ 3) l == ps p3 l - 3 * m * ps p2 l + 3 * m * m * ps p1 l - qlen l * m * m * m.
Proof.
  induction l as [|x l IH]; [change (0 == 0 - 3 * m * 0 + 3 * m * m * 0 - 0 * m * m * m); ring|]. rewrite !ps_cons, IH, qlen_cons. unfold p1, p2, p3.
  change ((x - m) ^ 3) with ((x - m) * ((x - m) * (x - m))). ring.
Qed.
Lemma shift4 l m : ps (fun x => (x - m) ^ 4) l == ps p4 l - 4 * m * ps p3 l + 6 * m * m * ps p2 l - 4 * m * m * m * ps p1 l + qlen l * m * m * m * m.
Proof.
  induction l as [|x l IH]; [change (0 == 0 - 4 * m * 0 + 6 * m * m * 0 - 4 * m * m * m * 0 + 0 * m * m * m * m); ring|]. rewrite !ps_cons, IH, qlen_cons. unfold p1, p2, p3, p4.
  assert (E : (x - m) ^ 4 == (x - m) * (x - m) * (x - m) * (x - m)) by (change ((x - m) ^ 4) with ((x - m) * (x - m) * ((x - m) * (x - m))); ring).
  rewrite E. ring.
Qed.
Lemma moments l s : l <> [] -> form (qlen l) l s ->
  s_m1 s == mean l /\ s_m2 s == moment 2 l /\ s_m3 s == moment 3 l /\ s_m4 s == moment 4 l.
Proof.
  intros NE [F1 F2 F3 F4].
  assert (NZ : ~ qlen l == 0) by (unfold qlen; destruct l; [congruence|]; cbn [length]; intros E; apply (inject_Z_injective (Z.of_nat (S (length l))) 0) in E; lia).
  assert (E1 : s_m1 s == mean l).
  { unfold mean. assert (ES : qsum l == ps p1 l) by (unfold ps, p1; rewrite map_id; reflexivity). rewrite ES, F1. field. exact NZ. }
  split; [exact E1|]. unfold moment.
  fold (ps (fun x => (x - mean l) ^ 2) l) (ps (fun x => (x - mean l) ^ 3) l) (ps (fun x => (x - mean l) ^ 4) l).
  rewrite shift2, shift3, shift4, <- E1, F1, F2, F3, F4. repeat split; ring.
Qed.
