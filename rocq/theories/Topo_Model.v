(** Model of hwy/contrib/thread_pool/topology.cc, the Linux paths: File::Read and ReadSysfs 375-435, number and
    list parsing 437-470, 565-636, Remapper 491-516, DetectPackages 527-563, SetNodes 639-653, SetClusterCacheSizes 655-671,
    Topology::Topology 862-885, the cache detection 894-1009, 1144-1200.
    Files are byte lists; a file that cannot be opened is None. *)
From Coq Require Import ZArith List Bool Lia.
From Verif Require Import Word.
Import ListNotations.
Local Open Scope Z_scope.

(** outcome of a call: a value, HWY_ASSERT/HWY_ABORT or an uncaught exception, or undefined behaviour *)
Inductive res (A : Type) := Ok (a : A) | Abort | UB.
Arguments Ok {A}. Arguments Abort {A}. Arguments UB {A}.
Definition bind {A B} (r : res A) (f : A -> res B) : res B := match r with Ok a => f a | Abort => Abort | UB => UB end.
Notation "'do' x <- e ; f" := (bind e (fun x => f)) (at level 200, x pattern, e at level 100, f at level 200).
Definition guard (b : bool) : res unit := if b then Ok tt else Abort.
Definition zl {A} (l : list A) : Z := Z.of_nat (length l).

(** ** File::Read 398-419. What read() returns, one entry per call: bytes (none at the end of the file or when no room is left), EINTR, another error *)
Inductive rd := Data (bs : list Z) | Eintr | Err.
(** [buf]: the bytes in buf200 so far; None: 0 is returned. A call sequence that never ends is not modelled (Abort for the empty list is unreachable for complete sequences) *)
Fixpoint file_read (rs : list rd) (buf : list Z) : res (option (list Z)) :=
  match rs with
  | [] => Abort
  | Data [] :: _ => if zl buf <? 200 then Ok (Some (buf ++ [0])) else UB
  | Data bs :: rs => if zl (buf ++ bs) <=? 200 then file_read rs (buf ++ bs) else Abort
  | Eintr :: rs => file_read rs buf
  | Err :: _ => Ok None
  end.
(** ReadSysfs 426-435 for a file with the given contents, by the above when no error occurs *)
Definition read_sysfs (f : option (list Z)) : res (option (list Z)) :=
  match f with None => Ok None | Some c => if zl c <? 200 then Ok (Some (c ++ [0])) else UB end.

(** ** numbers *)
Definition at_ (str : list Z) (i : Z) : res Z := if 0 <=? i then match nth_error str (Z.to_nat i) with Some c => Ok c | None => UB end else UB.
(** ParseDigits 439-456: at most nine digits; returns (found, pos, out) *)
Fixpoint digits (fuel : nat) (str : list Z) (lim pos out : Z) : res (Z * Z) :=
  match fuel with
  | O => Ok (pos, out)
  | S fuel => if pos <? lim then do c <- at_ str pos; if (c <? 48) || (57 <? c) then Ok (pos, out) else digits fuel str lim (pos + 1) (out * 10 + (c - 48)) else Ok (pos, out)
  end.
Definition parse_digits (str : list Z) (en pos : Z) : res (bool * Z * Z) :=
  do _ <- guard (pos <=? en); do (pos, out) <- digits 9 str (Z.min en (pos + 9)) pos 0; if pos =? 0 then Ok (false, pos, 0) else Ok (true, pos, out).
(** ParseNumberWithOptionalSuffix 459-474 *)
Definition parse_number (str : list Z) (len : Z) : res (option Z) :=
  do (found, pos, out) <- parse_digits str len 0;
  if negb found then Ok None else
  do c <- at_ str pos; let '(out, pos) := if c =? 75 then (wrap 64 (out * 2 ^ 10), pos + 1) else (out, pos) in
  do c <- at_ str pos; let '(out, pos) := if c =? 77 then (wrap 64 (out * 2 ^ 20), pos + 1) else (out, pos) in
  do c <- at_ str pos; if negb (c =? 0) && negb (c =? 10) then Abort else Ok (Some out).
(** ReadNumberWithOptionalSuffix 476-481 *)
Definition read_number (f : option (list Z)) : res (option Z) := do b <- read_sysfs f; match b with None => Ok None | Some buf => parse_number buf (zl buf) end.

(** ** ExpandList 565-636 (not RISC-V) *)
Definition kNotFound : Z := 2 ^ 64 - 1.
Fixpoint strchr (l : list Z) (i c : Z) : res (option Z) :=
  match l with [] => UB | x :: l => if x =? c then Ok (Some i) else if x =? 0 then Ok None else strchr l (i + 1) c end.
Definition find (txt : list Z) (list_end pos c : Z) : res Z :=
  do f <- strchr (skipn (Z.to_nat pos) txt) pos c; match f with None => Ok kNotFound | Some f => do _ <- guard (f <? list_end); Ok f end.
Definition parse_lp (txt : list Z) (list_end max_lp pos en : Z) : res (Z * Z) :=
  do (found, pos, lp) <- parse_digits txt (Z.min en list_end) pos;
  do _ <- guard found; do _ <- guard (lp <=? max_lp); do _ <- guard (pos <=? Z.min en list_end); Ok (pos, lp).
Definition range (a b : Z) : list Z := map (fun i => a + Z.of_nat i) (seq 0 (Z.to_nat (b - a + 1))).
Fixpoint expand (fuel : nat) (txt : list Z) (list_end max_lp pos : Z) (expanded : list Z) : res (list Z) :=
  match fuel with
  | O => Abort
  | S fuel =>
      do dash <- find txt list_end pos 45; do comma <- find txt list_end pos 44;
      do (pos, lp_first) <- parse_lp txt list_end max_lp pos (Z.min dash comma);
      do c <- at_ txt pos;
      do (pos, expanded) <-
        (if c =? 45 then
           do comma <- find txt list_end (pos + 1) 44;
           do (pos, lp_last) <- parse_lp txt list_end max_lp (pos + 1) comma;
           (* reserve() of a wrapped-around size throws *)
           do _ <- guard (0 <=? zl expanded + lp_last - lp_first + 1);
           Ok (pos, expanded ++ range lp_first lp_last)
         else Ok (pos, expanded ++ [lp_first]));
      if pos =? list_end then Ok expanded else
      do c <- at_ txt pos;
      if (c =? 0) || (c =? 10) then Ok expanded
      else if c =? 44 then expand fuel txt list_end max_lp (pos + 1) expanded
      else Abort
  end.
(** each round but the last skips a comma, so the length bounds the rounds *)
Definition expand_list (txt : list Z) (list_end max_lp : Z) : res (list Z) := expand (S (length txt)) txt list_end max_lp 0 [].

(** ** Remapper 491-516: the values seen so far in order of appearance; the map's index of a value is its position. [limit] = LimitsMax<T>() *)
Fixpoint index_of (v : Z) (l : list Z) : option nat := match l with [] => None | x :: l => if x =? v then Some O else option_map S (index_of v l) end.
Definition remap (limit : Z) (rm : list Z) (f : option (list Z)) : res (option (list Z * Z)) :=
  do o <- read_number f;
  match o with
  | None => Ok None
  | Some v =>
      let '(rm, i) := match index_of v rm with Some i => (rm, i) | None => (rm ++ [v], length rm) end in
      do _ <- guard (Z.of_nat i <? limit); Ok (Some (rm, Z.of_nat i))
  end.

(** ** Topology *)
Record LP := { l_cluster : Z; l_core : Z; l_package : Z; l_smt : Z; l_node : Z }.
Record PerPackage := { clusters : list Z; cores : list Z; smt_per_core : list Z (* uint8_t[kMaxLogicalProcessors] *) }.
Record sysfs := { f_package : nat -> option (list Z); f_cluster : nat -> option (list Z); f_core : nat -> option (list Z);
  f_l2 : nat -> option (list Z); f_l3 : nat -> option (list Z); f_node : nat -> option (list Z) }.
Definition upd {A} (l : list A) (i : nat) (x : A) : list A := firstn i l ++ x :: skipn (S i) l.
(** 527-537: the package of every LP *)
Fixpoint packages_loop (S : sysfs) (lps : list nat) (rm : list Z) (acc : list Z) : res (option (list Z * list Z)) :=
  match lps with
  | [] => Ok (Some (rm, acc))
  | lp :: lps =>
      do o <- remap 255 rm (f_package S lp);
      match o with None => Ok None | Some (rm, i) => packages_loop S lps rm (acc ++ [i]) end
  end.
(** 541-559: cluster, core and smt of every LP *)
Fixpoint cores_loop (S : sysfs) (todo : list (nat * Z)) (pp : list PerPackage) (acc : list LP) : res (option (list PerPackage * list LP)) :=
  match todo with
  | [] => Ok (Some (pp, acc))
  | (lp, pkg) :: todo =>
      match nth_error pp (Z.to_nat pkg) with
      | None => UB
      | Some p =>
          do o <- remap 65535 (clusters p) (f_cluster S lp);
          let '(cls, cl) := match o with None => (clusters p, 0) | Some (rm, i) => (rm, i) end in
          do o <- remap 65535 (cores p) (f_core S lp);
          match o with
          | None => Ok None
          | Some (cos, co) =>
              do _ <- guard (co <? 1024);
              let smt := nth (Z.to_nat co) (smt_per_core p) 0 in
              do _ <- guard (smt <? 16);
              let p' := {| clusters := cls; cores := cos; smt_per_core := upd (smt_per_core p) (Z.to_nat co) (wrap 8 (smt + 1)) |} in
              cores_loop S todo (upd pp (Z.to_nat pkg) p') (acc ++ [{| l_cluster := cl; l_core := co; l_package := pkg; l_smt := smt; l_node := 0 |}])
          end
      end
  end.
(** 559-572 returns (clusters, cores) of each package; None: empty. Assertions that no package and no core list is empty *)
Definition detect_packages (S : sysfs) (n : nat) : res (option (list (nat * nat) * list LP)) :=
  do o <- packages_loop S (seq 0 n) [] [];
  match o with
  | None => Ok None
  | Some (rm, pkgs) =>
      do _ <- guard (negb (zl rm =? 0));
      do o <- cores_loop S (combine (seq 0 n) pkgs) (repeat {| clusters := []; cores := []; smt_per_core := repeat 0 1024 |} (length rm)) [];
      match o with
      | None => Ok None
      | Some (pp, lps) =>
          do _ <- guard (forallb (fun p => negb (zl (cores p) =? 0)) pp);
          Ok (Some (map (fun p => (Nat.max 1 (length (clusters p)), length (cores p))) pp, lps))
      end
  end.
(** SetNodes 639-653, nodes [node] .. ; [fuel] bounds the number of nodes *)
Fixpoint set_node (l0 : list Z) (node : Z) (lps : list LP) : res (list LP) :=
  match l0 with
  | [] => Ok lps
  | lp :: l0 =>
      match nth_error lps (Z.to_nat lp) with
      | None => UB
      | Some l => set_node l0 node (upd lps (Z.to_nat lp) {| l_cluster := l_cluster l; l_core := l_core l; l_package := l_package l; l_smt := l_smt l; l_node := wrap 8 node |})
      end
  end.
Fixpoint set_nodes (S : sysfs) (fuel : nat) (node : nat) (lps : list LP) : res (list LP) :=
  match fuel with
  | O => Abort
  | Datatypes.S fuel =>
      do b <- read_sysfs (f_node S node);
      match b with
      | None => Ok lps
      | Some buf => do l <- expand_list buf (zl buf) (zl lps - 1); do lps <- set_node l (Z.of_nat node) lps; set_nodes S fuel (Datatypes.S node) lps
      end
  end.
(** sets of LP: increasing lists (BitSet4096, see C07-C09); sizes None: unknown, reported as 0 *)
Record Cluster := { c_lps : list nat; private_kib : option Z; shared_kib : option Z }.
Record Package := { p_clusters : list Cluster; p_cores : list (list nat) }.
Record Topology := { packages : list Package; lps : list LP }.
(** 874-881: the LP with the given package and cluster / core, in increasing order *)
Definition members (lps : list LP) (P : LP -> bool) : list nat := map fst (filter (fun x => P (snd x)) (combine (seq 0 (length lps)) lps)).
(** SetClusterCacheSizes 655-671; First() of an empty set is undefined *)
Definition cluster_sizes (S : sysfs) (c : list nat) : res Cluster :=
  match c with
  | [] => UB
  | lp :: _ =>
      do l2 <- read_number (f_l2 S lp); do l3 <- read_number (f_l3 S lp);
      Ok {| c_lps := c; private_kib := option_map (fun b => Z.shiftr b 10) l2; shared_kib := option_map (fun b => Z.shiftr b 10) l3 |}
  end.
Fixpoint mapM {A B} (f : A -> res B) (l : list A) : res (list B) := match l with [] => Ok [] | x :: l => do y <- f x; do ys <- mapM f l; Ok (y :: ys) end.
(** Topology::Topology 862-885. The writes p.clusters[cluster], p.cores[core] are out of bounds (UB) if an index is too large *)
Definition topology (S : sysfs) (n : nat) (nodes_fuel : nat) : res Topology :=
  do o <- detect_packages S n;
  match o with
  | None => Ok {| packages := []; lps := [] |} (* caller must not use any fields *)
  | Some (sizes, ls) =>
      do ls <- set_nodes S nodes_fuel 0 ls;
      if forallb (fun l => match nth_error sizes (Z.to_nat (l_package l)) with Some (ncl, nco) => (l_cluster l <? Z.of_nat ncl) && (l_core l <? Z.of_nat nco) | None => false end) ls then
        do ps <- mapM (fun x => let '(p, (ncl, nco)) := x in
                          do cls <- mapM (fun c => cluster_sizes S (members ls (fun l => (l_package l =? Z.of_nat p) && (l_cluster l =? Z.of_nat c)))) (seq 0 ncl);
                          Ok {| p_clusters := cls; p_cores := map (fun c => members ls (fun l => (l_package l =? Z.of_nat p) && (l_core l =? Z.of_nat c))) (seq 0 nco) |})
                      (combine (seq 0 (length sizes)) sizes);
        Ok {| packages := ps; lps := ls |}
      else UB
  end.
