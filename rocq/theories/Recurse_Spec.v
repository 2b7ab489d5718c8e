(** What VQSort assumes about the traits of a key type; Traits_Proofs shows it of the
    orders in traits-inl.h and traits128-inl.h. *)
From Coq Require Import ZArith List Bool.
From Verif Require Import Sort_Spec Recurse_Model.
Import ListNotations.

Section Spec.
Context {K : Type} (T : traits K).
Record traits_ok : Prop := {
  (* Compare is a strict weak order, the sorting networks use a total order that refines it *)
  tok_sw : strict_weak (t_lt T);
  tok_net : total_order (t_ltn T);
  tok_refine : forall a b, t_lt T a b = true -> t_ltn T a b = true;
  (* LastValue pads the networks: nothing comes after it *)
  tok_pad : forall x, t_ltn T (t_lastv T) x = false;
  (* First / Last / Sort2 return their operands, in order *)
  tok_first : forall a b, (t_first T a b = a \/ t_first T a b = b) /\ t_lt T a (t_first T a b) = false /\ t_lt T b (t_first T a b) = false;
  tok_last : forall a b, (t_last T a b = a \/ t_last T a b = b) /\ t_lt T (t_last T a b) a = false /\ t_lt T (t_last T a b) b = false;
  tok_sort2 : forall a b, (t_sort2 T a b = (a, b) \/ t_sort2 T a b = (b, a)) /\ t_lt T (snd (t_sort2 T a b)) (fst (t_sort2 T a b)) = false;
  (* EqualKeys = neither comes first; keys that are not key-value pairs are equal only if identical *)
  tok_eq : forall a b, t_eq T a b = negb (t_lt T a b) && negb (t_lt T b a);
  tok_kv : t_kv T = false -> total_order (t_lt T);
  (* the median is equivalent to one of the three *)
  tok_median : forall a b c, t_eq T (median_of_3 T a b c) a = true \/ t_eq T (median_of_3 T a b c) b = true \/ t_eq T (median_of_3 T a b c) c = true;
  (* nothing comes before FirstValue; PrevValue(v) is the last key before v *)
  tok_firstv : forall x, t_lt T x (t_firstv T) = false;
  tok_prev : forall v x, t_eq T v (t_firstv T) = false -> t_lt T (t_prev T v) x = negb (t_lt T x v)
}.
End Spec.
