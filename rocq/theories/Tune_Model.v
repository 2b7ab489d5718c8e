(** hwy/auto_tune.h: NextWithSkip (268-341) and AutoTune (394-503). *)
From Coq Require Import ZArith List Lia Bool.
From Verif Require Import Word Vec_Model.
Import ListNotations.
Local Open Scope Z_scope.

(** ** NextWithSkip: one uint32_t per position *)
(** 302-304 kBits = 14, kShift = 18, kMaxNum = 2^14 *)
Definition kBits : Z := 14.
Definition kShift : Z := 18.
Definition kMaxNum : Z := 2 ^ 14.

(** 307-315 Link(pos, num) *)
Definition link_ctor (pos num : Z) : Z :=
  let prev := if pos =? 0 then num - 1 else pos - 1 in
  let next := if pos =? num - 1 then 0 else pos + 1 in
  Z.lor (wrap 32 (Z.shiftl next kShift)) (wrap 32 prev).
(** 317-321 *)
Definition link_removed (b : Z) : bool := negb (Z.land b kMaxNum =? 0).
Definition link_remove (b : Z) : Z := Z.lor b kMaxNum.
Definition link_next (b : Z) : Z := Z.shiftr b kShift.
Definition link_prev (b : Z) : Z := Z.land b (kMaxNum - 1).
(** 323-329 SetNext: bits_ &= (~0u >> kBits) *)
Definition link_set_next (b next : Z) : Z :=
  Z.lor (Z.land b (Z.shiftr (2 ^ 32 - 1) kBits)) (wrap 32 (Z.shiftl next kShift)).
(** 330-336 SetPrev: bits_ &= ~(kMaxNum - 1) *)
Definition link_set_prev (b prev : Z) : Z :=
  Z.lor (Z.land b (wrap 32 (Z.lnot (kMaxNum - 1)))) (wrap 32 prev).

(** 271-276 constructor *)
Definition nws_ctor (num : Z) : list Z := map (fun i => link_ctor (Z.of_nat i) num) (seq 0 (Z.to_nat num)).
(** 278-282 Next(pos); [None]: pos outside the vector *)
Definition nws_next (links : list Z) (pos : Z) : option Z := option_map link_next (rd links pos).
(** 286-294 Skip(pos) *)
Definition nws_skip (links : list Z) (pos : Z) : option (list Z) :=
  match rd links pos with
  | None => None
  | Some b =>
      let prev := link_prev b in let next := link_next b in
      if (prev =? pos) || (next =? pos) then Some links
      else
        match rd links next with
        | None => None
        | Some bn =>
            match wr links next (link_set_prev bn prev) with
            | None => None
            | Some l1 =>
                match rd l1 prev with
                | None => None
                | Some bp =>
                    match wr l1 prev (link_set_next bp next) with
                    | None => None
                    | Some l2 => match rd l2 pos with None => None | Some b' => wr l2 pos (link_remove b') end
                    end
                end
            end
        end
  end.

(** run a history of Skip calls, latest first *)
Fixpoint skips (links : list Z) (h : list Z) : option (list Z) :=
  match h with [] => Some links | pos :: r => match skips links r with Some l => nws_skip l pos | None => None end end.

(** ** AutoTune.  CostDistribution (a numeric estimator, lines 38-277) is
    abstract: [D] its state, [notify] and [estimate] its two operations
    ([estimate] may update the state), [E] the type double with its [<] (false
    on NaN), [highest] = HighestValue<double>(), [scale] = multiplication by
    1.25, [zero] = 0.0. *)
Section AutoTune.
Context {D E : Type}.
Variables (d0 : D) (notify : D -> Z -> D) (estimate : D -> D * E) (elt : E -> E -> bool).
Variables (zero highest : E) (scale : E -> E) (kMinSamples : Z).

Record tuner := { t_best : option Z; t_num : Z; t_costs : list D; t_idx : Z; t_list : list Z; t_rounds : Z; t_skip : E }.

(** 413-419 SetCandidates with [num] candidates, on a fresh object (492-499) *)
Definition set_candidates (num : Z) : tuner :=
  {| t_best := None; t_num := num; t_costs := repeat d0 (Z.to_nat num); t_idx := 0; t_list := nws_ctor num; t_rounds := 0; t_skip := zero |}.

(** 466-475: the loop over all candidates; returns the updated distributions,
    best_cost and idx_min *)
Fixpoint scan_costs (costs : list D) (i : Z) (best : E) (idx_min : Z) : list D * E * Z :=
  match costs with
  | [] => ([], best, idx_min)
  | d :: r =>
      let (d', e) := estimate d in
      let '(best', idx') := if elt e best then (e, i) else (best, idx_min) in
      let '(r', b, im) := scan_costs r (i + 1) best' idx' in (d' :: r', b, im)
  end.

(** 437-486 NotifyCost; [None] for an access outside a vector *)
Definition notify_cost (t : tuner) (cost : Z) : option tuner :=
  match rd (t_costs t) (t_idx t) with
  | None => None
  | Some d =>
      let my_idx := t_idx t in
      let d := notify d cost in
      let '(d, my_cost) := if kMinSamples <=? t_rounds t then estimate d else (d, zero) in
      match wr (t_costs t) my_idx d, nws_next (t_list t) my_idx with
      | Some costs, Some idx' =>
          match (if elt (t_skip t) my_cost then nws_skip (t_list t) my_idx else Some (t_list t)) with
          | None => None
          | Some links =>
              if idx' <=? my_idx then
                let rounds := t_rounds t + 1 in
                if kMinSamples <=? rounds then
                  let '(costs', best_cost, idx_min) := scan_costs costs 0 highest 0 in
                  Some {| t_best := if rounds =? 3 * kMinSamples / 2 + 1 then Some idx_min else t_best t;
                          t_num := t_num t; t_costs := costs'; t_idx := idx'; t_list := links; t_rounds := rounds; t_skip := scale best_cost |}
                else Some {| t_best := t_best t; t_num := t_num t; t_costs := costs; t_idx := idx'; t_list := links; t_rounds := rounds; t_skip := t_skip t |}
              else Some {| t_best := t_best t; t_num := t_num t; t_costs := costs; t_idx := idx'; t_list := links; t_rounds := t_rounds t; t_skip := t_skip t |}
          end
      | _, _ => None
      end
  end.
(** 431-434 NextConfig: index of the candidate to measure *)
Definition next_config (t : tuner) : Z := t_idx t.

(** 407-410 HasCandidates and 422-425 Candidates in a debug build (HWY_DASSERT
    active): [None] = abort; otherwise the number of candidates *)
Definition has_candidates_debug (t : tuner) : option bool :=
  match t_best t with Some _ => None | None => Some (negb (t_num t =? 0)) end.
Definition candidates_debug (t : tuner) : option Z :=
  match has_candidates_debug t with Some true => Some (t_num t) | _ => None end.

(** the caller's loop: measure and notify while Best() is null *)
Fixpoint tune (t : tuner) (costs : list Z) : option tuner :=
  match costs with
  | [] => Some t
  | c :: r => match t_best t with
              | Some _ => Some t
              | None => match notify_cost t c with Some t' => tune t' r | None => None end
              end
  end.
End AutoTune.
