(** Contract between the aligned allocator, its underlying allocator and its
    users, as a history of operations. *)
From Coq Require Import ZArith List Bool.
From Verif Require Import Word Alloc_Model.
Import ListNotations.
Local Open Scope Z_scope.

(** what was handed out (ghost): payload address and size, underlying block
    and its size *)
Record live := { lv_payload : Z; lv_size : Z; lv_block : Z; lv_block_size : Z }.
Record hstate := { h_mem : mem; h_next : Z; h_live : list live }.

Definition disjoint (a la b lb : Z) : Prop := a + la <= b \/ b + lb <= a.

Inductive hop :=
| HAlloc (size block : Z)  (* AllocateAlignedBytes(size); the underlying allocator returns block (0 = null) *)
| HWrite (addr byte : Z)   (* the user stores a byte *)
| HFree (payload : Z).     (* FreeAlignedBytes / DeleteAlignedArray *)

(** one operation, calling the model's functions *)
Definition hstep (kAl kAlias : Z) (op : hop) (s : hstate) : hstate :=
  match op with
  | HAlloc size block =>
      let (off0, next') := next_aligned_offset kAl kAlias (h_next s) in
      match alloc_begin kAl kAlias size off0 with
      | Request offset req =>
          if block =? 0 then {| h_mem := h_mem s; h_next := next'; h_live := h_live s |}
          else let p := alloc_payload kAlias block offset in
               {| h_mem := alloc_header (h_mem s) block p size; h_next := next';
                  h_live := {| lv_payload := p; lv_size := size; lv_block := block; lv_block_size := req |} :: h_live s |}
      | _ => {| h_mem := h_mem s; h_next := next'; h_live := h_live s |}
      end
  | HWrite a b => {| h_mem := upd (h_mem s) a b; h_next := h_next s; h_live := h_live s |}
  | HFree p => {| h_mem := h_mem s; h_next := h_next s; h_live := filter (fun l => negb (lv_payload l =? p)) (h_live s) |}
  end.

(** obligations of the underlying allocator (fresh blocks inside the address
    space, disjoint from live ones) and of the user (writes only inside live
    payloads, frees only live payloads) *)
Definition contract (kAl kAlias : Z) (op : hop) (s : hstate) : Prop :=
  match op with
  | HAlloc size block => 0 <= size < 2 ^ 64 /\
      match alloc_begin kAl kAlias size (fst (next_aligned_offset kAl kAlias (h_next s))) with
      | Request _ req => block = 0 \/
          (0 < block /\ block + req < 2 ^ 64 /\ forall l, In l (h_live s) -> disjoint block req (lv_block l) (lv_block_size l))
      | _ => True
      end
  | HWrite a b => 0 <= b < 256 /\ exists l, In l (h_live s) /\ lv_payload l <= a < lv_payload l + lv_size l
  | HFree p => exists l, In l (h_live s) /\ lv_payload l = p
  end.

Inductive reach (kAl kAlias : Z) : hstate -> Prop :=
| r_init m next : 0 <= next < 2 ^ 64 -> reach kAl kAlias {| h_mem := m; h_next := next; h_live := [] |}
| r_step s op : reach kAl kAlias s -> contract kAl kAlias op s -> reach kAl kAlias (hstep kAl kAlias op s).
