(** The rank by which VQSort_Spec orders float keys is the order of their values. *)
From Coq Require Import ZArith Bool List Lia.
From Verif Require Import Word Word_Proofs Traits_Model VQSort_Model VQSort_Spec Float_Spec Float_Proofs Float_More.
Local Open Scope Z_scope.

Lemma sort_rank_order e p (x y : key (FloatKey e p)) : key_ok (FloatKey e p) ->
  (VQSort_Spec.value (FloatKey e p) x < VQSort_Spec.value (FloatKey e p) y <->
   float_lt {| ebits := Zpos e; mbits := Zpos p |} (proj1_sig x) (proj1_sig y)).
Proof.
  intros K. set (f := {| ebits := Zpos e; mbits := Zpos p |}).
  assert (O : fmt_ok f).
  { destruct K as [K|[K|K]]; injection K as -> ->; [apply ok16|apply ok32|apply ok64]. }
  assert (G : forall z : fkey e p, is_pattern f (proj1_sig z) /\ ~ Float_Spec.is_nan f (proj1_sig z)).
  { intros (z & Hz). cbn [proj1_sig]. unfold is_key in Hz. apply andb_prop in Hz as (Hz & _). apply andb_prop in Hz as (Hz & N).
    apply andb_prop in Hz as (Z0 & Z1). unfold is_pattern, fwidth, Float_Spec.is_nan, inf_mag, magnitude, f. cbn [ebits mbits].
    unfold Traits_Model.is_nan, finf, fabs, fsign in *. rewrite Z.shiftl_mul_pow2 in N by lia.
    rewrite <- Z.add_assoc, (Z.pow_add_r 2 1) by lia. change (2 ^ 1) with 2. split; [lia|].
    apply negb_true_iff in N. apply Z.ltb_ge in N. lia. }
  destruct (G x) as (Px & Nx). destruct (G y) as (Py & Ny).
  exact (rank_order f (proj1_sig x) (proj1_sig y) O Px Py Nx Ny).
Qed.
