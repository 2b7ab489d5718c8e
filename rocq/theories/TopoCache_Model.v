(** Model of the cache detection of hwy/contrib/thread_pool/topology.cc on Linux: DivByFactor 87-95, ReadString and
    WriteSysfs 898-920, InitCachesSysfs 925-1009, ComputeSets 1174-1197, InitDataCaches 1199-1231. DataCaches 1236-1239 returns the latter's result, computed once. *)
From Coq Require Import ZArith List Bool Lia.
From Verif Require Import Word Topo_Model.
Import ListNotations.
Local Open Scope Z_scope.

(** struct Cache, topology.h 113-127. Fields: uint32 size_kib, sets; uint16 bytes_per_line, associativity, cores_sharing *)
Record Cache := { size_kib : Z; sets : Z; bytes_per_line : Z; associativity : Z; cores_sharing : Z }.
Definition no_cache : Cache := {| size_kib := 0; sets := 0; bytes_per_line := 0; associativity := 0; cores_sharing := 0 |}.
(** the files of /sys/devices/system/cpu/cpu0/cache/index%zu/ *)
Record entry := { e_type : option (list Z); e_level : option (list Z); e_size : option (list Z); e_ways : option (list Z); e_sets : option (list Z); e_shared : option (list Z) }.

(** ReadString 898-908: without trailing newlines and NULs *)
Fixpoint strip_rev (l : list Z) : list Z := match l with c :: l' => if (c =? 0) || (c =? 10) then strip_rev l' else l | [] => [] end.
Definition read_string (f : option (list Z)) : res (list Z) :=
  do b <- read_sysfs f; Ok (match b with None => [] | Some buf => rev (strip_rev (rev buf)) end).
(** WriteSysfs 910-920, for an output of [w] bits; None: false. c_str() appends a NUL *)
Definition write_sysfs (w : Z) (f : option (list Z)) : res (option Z) :=
  do str <- read_string f; do (found, pos, val) <- parse_digits (str ++ [0]) (zl str) 0;
  if negb found then Ok None else do _ <- guard (pos <=? zl str); Ok (Some (wrap w val)).
(** DivByFactor 87-95 *)
Definition div_by_factor (whole part : Z) : res Z :=
  do _ <- guard (negb (part =? 0)); let div := whole / part in do _ <- guard (wrap 64 (div * part) =? whole); Ok div.
Fixpoint eqb_list (a b : list Z) : bool := match a, b with [], [] => true | x :: a, y :: b => (x =? y) && eqb_list a b | _, _ => false end.
Definition kData : list Z := [68; 97; 116; 97].
Definition kUnified : list Z := [85; 110; 105; 102; 105; 101; 100].
(** 977-986; ExpandList never returns a processor above the maximum *)
Fixpoint num_cores (smts : list Z) (shared : list Z) : res Z :=
  match shared with
  | [] => Ok 0
  | lp :: shared => do k <- num_cores smts shared; match nth_error smts (Z.to_nat lp) with Some s => Ok (if s =? 0 then k + 1 else k) | None => Ok k end
  end.
(** 955-999: a cache of which no entry was seen so far *)
Definition detect_one (smts : list Z) (e : entry) : res Cache :=
  do o <- write_sysfs 32 (e_size e);
  match o with None => Ok no_cache | Some size =>
  do o <- write_sysfs 16 (e_ways e);
  match o with None => Ok no_cache | Some ways =>
  do o <- write_sysfs 32 (e_sets e);
  match o with None => Ok no_cache | Some sets =>
    do line <- div_by_factor (wrap 64 (size * 1024)) (wrap 32 (ways * sets));
    do shared_str <- read_string (e_shared e);
    match shared_str with
    | [] => Ok {| size_kib := size; sets := sets; bytes_per_line := wrap 16 line; associativity := ways; cores_sharing := 1 |}
    | _ =>
        do shared <- expand_list (shared_str ++ [0]) (zl shared_str) (zl smts - 1);
        do k <- num_cores smts shared;
        let k := if k =? 0 then 1 else k in
        Ok {| size_kib := size / k; sets := sets / k; bytes_per_line := wrap 16 line; associativity := ways; cores_sharing := wrap 16 k |}
    end
  end end end.
(** 936-1000: the entries in order; reading stops at the first without type *)
Fixpoint entries_loop (smts : list Z) (es : list entry) (caches : list Cache) : res (list Cache) :=
  match es with
  | [] => Ok caches
  | e :: es =>
      do type <- read_string (e_type e);
      match type with [] => Ok caches | _ =>
        if negb (eqb_list type kData) && negb (eqb_list type kUnified) then entries_loop smts es caches else
        do o <- write_sysfs 32 (e_level e);
        match o with
        | None => entries_loop smts es caches
        | Some level =>
            if negb ((1 <=? level) && (level <=? 3)) then entries_loop smts es caches else
            match nth_error caches (Z.to_nat level) with
            | None => UB
            | Some c => if negb (size_kib c =? 0) then entries_loop smts es caches else do c <- detect_one smts e; entries_loop smts es (upd caches (Z.to_nat level) c)
            end
        end end
  end.
(** InitCachesSysfs 925-1009: None is false *)
Definition init_caches (S : sysfs) (n : nat) (es : list entry) : res (option (list Cache)) :=
  do o <- detect_packages S n;
  match o with
  | None => Ok None
  | Some (_, ls) =>
      do caches <- entries_loop (map l_smt ls) es (repeat no_cache 4);
      match caches with
      | [_; c1; c2; c3] => if (size_kib c1 =? 0) || (size_kib c2 =? 0) then Ok None else Ok (Some caches)
      | _ => UB
      end
  end.
(** ComputeSets 1174-1197. Division by zero is undefined behaviour; the subtraction is of size_t *)
Definition compute_sets (c : Cache) : res Cache :=
  let set s := {| size_kib := size_kib c; sets := s; bytes_per_line := bytes_per_line c; associativity := associativity c; cores_sharing := cores_sharing c |} in
  if size_kib c =? 0 then Ok (set 0) else
  if (bytes_per_line c =? 0) || (associativity c =? 0) then UB else
  let lines := wrap 64 (size_kib c * 1024) / bytes_per_line c in
  let s := lines / associativity c in
  if sets c =? 0 then Ok (set (wrap 32 s)) else do _ <- guard (wrap 64 (sets c - s) <=? 1); Ok c.
(** InitDataCaches 1199-1231: None is nullptr *)
Definition data_caches (S : sysfs) (n : nat) (es : list entry) : res (option (list Cache)) :=
  do o <- init_caches S n es;
  match o with
  | Some [c0; c1; c2; c3] =>
      do c1 <- compute_sets c1; do c2 <- compute_sets c2; do c3 <- compute_sets c3;
      Ok (Some [c0; c1; c2; if (16 <=? cores_sharing c3) && (size_kib c3 <=? 512) then no_cache else c3])
  | _ => Ok None
  end.
