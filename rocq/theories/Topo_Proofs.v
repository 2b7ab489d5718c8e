(** Proofs about the topology model: parsing. *)
From Coq Require Import ZArith List Bool Lia.
From Verif Require Import Word Topo_Spec Topo_Model.
Import ListNotations.
Local Open Scope Z_scope.

Lemma zl_app {A} (a b : list A) : zl (a ++ b) = zl a + zl b.
Proof. unfold zl. rewrite app_length. lia. Qed.
Lemma zl_nonneg {A} (a : list A) : 0 <= zl a.
Proof. unfold zl. lia. Qed.
Lemma zl_cons {A} (x : A) l : zl (x :: l) = 1 + zl l.
Proof. unfold zl. cbn [length]. lia. Qed.
Lemma zl_nil {A} : zl (@nil A) = 0.
Proof. reflexivity. Qed.

(** ** File::Read *)
(** what the kernel may answer to the successive read(fd, buf200 + pos, 200 - pos) of a file *)
Inductive reads (content : list Z) : nat -> list rd -> Prop :=
| R_eof pos : Nat.min (200 - pos) (length content - pos) = 0%nat -> reads content pos [Data []]
| R_data pos k rs : (1 <= k <= Nat.min (200 - pos) (length content - pos))%nat -> reads content (pos + k) rs -> reads content pos (Data (firstn k (skipn pos content)) :: rs)
| R_eintr pos rs : reads content pos rs -> reads content pos (Eintr :: rs)
| R_err pos : reads content pos [Err].
Lemma file_read_ok content pos rs : reads content pos rs -> (pos <= 200)%nat -> (pos <= length content)%nat ->
  file_read rs (firstn pos content) = read_sysfs (Some content) \/ (In Err rs /\ file_read rs (firstn pos content) = Ok None).
Proof.
  induction 1 as [pos H|pos k rs Hk H IH|pos rs H IH|pos]; intros H2 HC.
  - left. cbn [file_read read_sysfs]. unfold zl. rewrite firstn_length.
    destruct (Z.ltb_spec (Z.of_nat (length content)) 200) as [L|L].
    + destruct (Z.ltb_spec (Z.of_nat (Nat.min pos (length content))) 200); [|lia]. rewrite firstn_all2 by lia. reflexivity.
    + destruct (Z.ltb_spec (Z.of_nat (Nat.min pos (length content))) 200); [lia|reflexivity].
  - assert (E : firstn pos content ++ firstn k (skipn pos content) = firstn (pos + k) content).
    { rewrite <- (firstn_skipn pos (firstn (pos + k) content)). rewrite firstn_firstn, skipn_firstn_comm. f_equal; [f_equal; lia|f_equal; lia]. }
    assert (L : length (firstn k (skipn pos content)) = k) by (rewrite firstn_length, skipn_length; lia).
    destruct (firstn k (skipn pos content)) as [|b bs] eqn:EB; [cbn [length] in L; lia|].
    specialize (IH ltac:(lia) ltac:(lia)). cbn [file_read]. rewrite E.
    replace (zl (firstn (pos + k) content) <=? 200) with true by (symmetry; apply Z.leb_le; unfold zl; rewrite firstn_length; lia).
    destruct IH as [IH|[I1 I2]]; [left; exact IH|right; split; [right; exact I1|exact I2]].
  - cbn [file_read]. destruct (IH H2 HC) as [I|[I1 I2]]; [left; exact I|right; split; [right; exact I1|exact I2]].
  - right. split; [left; reflexivity|reflexivity].
Qed.

(** ** numbers *)
Lemma at_ok pre c post : at_ (pre ++ c :: post) (zl pre) = Ok c.
Proof.
  unfold at_, zl. destruct (Z.leb_spec 0 (Z.of_nat (length pre))); [|lia]. rewrite Nat2Z.id, nth_error_app2, Nat.sub_diag by lia. reflexivity.
Qed.
Definition nondigit (c : Z) : Prop := c < 48 \/ 57 < c.
Lemma digits_ok ds : forall pre c post fuel lim out, Forall is_digit ds -> nondigit c -> (length ds <= fuel)%nat -> zl pre + zl ds <= lim ->
  digits fuel (pre ++ ds ++ c :: post) lim (zl pre) out = Ok (zl pre + zl ds, fold_left (fun a c => a * 10 + (c - 48)) ds out).
Proof.
  induction ds as [|d ds IH]; intros pre c post fuel lim out HF HC Hf Hl; cbn [app fold_left].
  - rewrite zl_nil, Z.add_0_r. destruct fuel as [|fuel]; [reflexivity|]. cbn [digits]. destruct (zl pre <? lim); [|reflexivity].
    rewrite at_ok. cbn [bind]. destruct HC as [HC|HC]; [rewrite (proj2 (Z.ltb_lt _ _)) by lia; reflexivity|]. rewrite (proj2 (Z.ltb_lt 57 c)) by lia. rewrite orb_true_r. reflexivity.
  - inversion HF as [|? ? HD HF']; subst. cbn [length] in Hf. destruct fuel as [|fuel]; [lia|]. cbn [digits]. rewrite zl_cons in *. pose proof (zl_nonneg ds).
    destruct (Z.ltb_spec (zl pre) lim); [|lia]. rewrite at_ok. cbn [bind]. unfold is_digit in HD.
    destruct (Z.ltb_spec d 48); [lia|]. destruct (Z.ltb_spec 57 d); [lia|]. cbn [orb].
    change (pre ++ d :: ds ++ c :: post) with (pre ++ [d] ++ ds ++ c :: post). rewrite app_assoc. replace (zl pre + 1) with (zl (pre ++ [d])) by (rewrite zl_app; reflexivity).
    rewrite IH by (try assumption; rewrite ?zl_app; cbn; lia || (rewrite zl_app; change (zl [d]) with 1; lia)).
    rewrite zl_app. change (zl [d]) with 1. f_equal. f_equal. lia.
Qed.
Lemma parse_digits_ok pre ds v c post en : decimal ds v -> nondigit c -> zl pre + zl ds <= en ->
  parse_digits (pre ++ ds ++ c :: post) en (zl pre) = Ok (true, zl pre + zl ds, v).
Proof.
  intros (HL & HF & HV) HC He. unfold parse_digits, guard. pose proof (zl_nonneg pre). assert (1 <= zl ds <= 9) by (unfold zl; lia).
  destruct (Z.leb_spec (zl pre) en); [|lia]. cbn [bind]. rewrite digits_ok; [|exact HF|exact HC|lia|lia]. cbn [bind].
  destruct (Z.eqb_spec (zl pre + zl ds) 0); [lia|]. unfold value in HV. rewrite HV. reflexivity.
Qed.
Lemma value_bound ds v : decimal ds v -> 0 <= v < 10 ^ 9.
Proof.
  intros (HL & HF & <-). unfold value.
  assert (G : forall ds a, Forall is_digit ds -> 0 <= a -> 0 <= fold_left (fun a c => a * 10 + (c - 48)) ds a < (a + 1) * 10 ^ Z.of_nat (length ds)).
  { clear. induction ds as [|d ds IH]; intros a HF Ha; cbn [fold_left length]; [change (Z.of_nat 0) with 0; rewrite Z.pow_0_r; lia|].
    inversion HF as [|? ? HD HF']; subst. unfold is_digit in HD. specialize (IH (a * 10 + (d - 48)) HF' ltac:(lia)).
    rewrite Nat2Z.inj_succ, Z.pow_succ_r by lia. assert (0 < 10 ^ Z.of_nat (length ds)) by (apply Z.pow_pos_nonneg; lia). nia. }
  specialize (G ds 0 HF ltac:(lia)). assert (10 ^ Z.of_nat (length ds) <= 10 ^ 9) by (apply Z.pow_le_mono_r; lia). lia.
Qed.
Lemma parse_number_ok f v : number_file f v -> parse_number (f ++ [0]) (zl (f ++ [0])) = Ok (Some v).
Proof.
  intros (ds & suf & nl & x & -> & HD & HN & HS). assert (VB := value_bound _ _ HD). unfold parse_number.
  destruct HS as [[-> ->]|[[-> ->]|[-> ->]]].
  - assert (exists c post, (c = 10 \/ c = 0) /\ (ds ++ [] ++ nl) ++ [0] = [] ++ ds ++ c :: post) as (c & post & Hc & ->).
    { destruct HN as [-> | ->]; [exists 0, []; split; [right; reflexivity|rewrite !app_nil_r; reflexivity]|exists 10, [0]; split; [left; reflexivity|cbn [app]; rewrite <- app_assoc; reflexivity]]. }
    assert (PD := parse_digits_ok [] ds x c post (zl ([] ++ ds ++ c :: post)) HD ltac:(unfold nondigit; lia)).
    rewrite zl_nil in PD. rewrite PD by (cbn [app]; rewrite (zl_app ds); pose proof (zl_nonneg (c :: post)); lia). cbn [bind negb].
    change (0 + zl ds) with (zl ds). change ([] ++ ds ++ c :: post) with (ds ++ c :: post). rewrite at_ok. cbn [bind].
    destruct (Z.eqb_spec c 75); [lia|]. rewrite at_ok. cbn [bind]. destruct (Z.eqb_spec c 77); [lia|]. rewrite at_ok. cbn [bind].
    destruct Hc as [-> | ->]; reflexivity.
  - assert (exists c post, (c = 10 \/ c = 0) /\ (ds ++ [75] ++ nl) ++ [0] = [] ++ ds ++ 75 :: c :: post) as (c & post & Hc & ->).
    { destruct HN as [-> | ->]; [exists 0, []; split; [right; reflexivity|rewrite <- app_assoc; reflexivity]|exists 10, [0]; split; [left; reflexivity|rewrite <- app_assoc; reflexivity]]. }
    assert (PD := parse_digits_ok [] ds x 75 (c :: post) (zl ([] ++ ds ++ 75 :: c :: post)) HD ltac:(unfold nondigit; lia)).
    rewrite zl_nil in PD. rewrite PD by (cbn [app]; rewrite (zl_app ds); pose proof (zl_nonneg (75 :: c :: post)); lia). cbn [bind negb].
    change (0 + zl ds) with (zl ds). change ([] ++ ds ++ 75 :: c :: post) with (ds ++ 75 :: c :: post). rewrite at_ok. cbn [bind].
    change (75 =? 75) with true. cbn iota. replace (zl ds + 1) with (zl (ds ++ [75])) by (rewrite zl_app; reflexivity).
    change (ds ++ 75 :: c :: post) with (ds ++ [75] ++ c :: post). rewrite app_assoc, at_ok. cbn [bind]. destruct (Z.eqb_spec c 77); [lia|]. rewrite at_ok. cbn [bind].
    unfold wrap. rewrite Z.mod_small by (change (2 ^ 10) with 1024; change (2 ^ 64) with 18446744073709551616; lia).
    destruct Hc as [-> | ->]; reflexivity.
  - assert (exists c post, (c = 10 \/ c = 0) /\ (ds ++ [77] ++ nl) ++ [0] = [] ++ ds ++ 77 :: c :: post) as (c & post & Hc & ->).
    { destruct HN as [-> | ->]; [exists 0, []; split; [right; reflexivity|rewrite <- app_assoc; reflexivity]|exists 10, [0]; split; [left; reflexivity|rewrite <- app_assoc; reflexivity]]. }
    assert (PD := parse_digits_ok [] ds x 77 (c :: post) (zl ([] ++ ds ++ 77 :: c :: post)) HD ltac:(unfold nondigit; lia)).
    rewrite zl_nil in PD. rewrite PD by (cbn [app]; rewrite (zl_app ds); pose proof (zl_nonneg (77 :: c :: post)); lia). cbn [bind negb].
    change (0 + zl ds) with (zl ds). change ([] ++ ds ++ 77 :: c :: post) with (ds ++ 77 :: c :: post). rewrite at_ok. cbn [bind].
    change (77 =? 75) with false. cbn iota. rewrite at_ok. cbn [bind]. change (77 =? 77) with true. cbn iota. replace (zl ds + 1) with (zl (ds ++ [77])) by (rewrite zl_app; reflexivity).
    change (ds ++ 77 :: c :: post) with (ds ++ [77] ++ c :: post). rewrite app_assoc, at_ok. cbn [bind].
    unfold wrap. rewrite Z.mod_small by (change (2 ^ 20) with 1048576; change (2 ^ 64) with 18446744073709551616; lia).
    destruct Hc as [-> | ->]; reflexivity.
Qed.
Lemma number_file_len f v : number_file f v -> zl f < 200.
Proof.
  intros (ds & suf & nl & x & -> & (HL & _) & HN & HS). rewrite !zl_app. assert (zl ds <= 9) by (unfold zl; lia).
  assert (zl nl <= 1) by (destruct HN as [-> | ->]; cbn; lia). assert (zl suf <= 1) by (destruct HS as [[-> _]|[[-> _]|[-> _]]]; cbn; lia). lia.
Qed.
Lemma read_number_ok f v : number_file f v -> read_number (Some f) = Ok (Some v).
Proof.
  intros H. unfold read_number, read_sysfs. assert (L := number_file_len _ _ H). destruct (Z.ltb_spec (zl f) 200); [|lia]. cbn [bind]. apply parse_number_ok, H.
Qed.

(** ** lists *)
Lemma strchr_ok c (a m : list Z) : c <> 0 -> Forall (fun x => x <> c /\ x <> 0) a -> Forall (fun x => x <> 0) m -> forall i,
  strchr (a ++ m ++ [0]) i c = Ok None \/ exists f, strchr (a ++ m ++ [0]) i c = Ok (Some f) /\ i + zl a <= f < i + zl a + zl m.
Proof.
  intros Hc HA HM. induction HA as [|x a [Hx1 Hx2] HA IH]; intros i; cbn [app].
  - change (zl (@nil Z)) with 0. revert i. induction HM as [|x m Hx HM IH]; intros i; cbn [app strchr].
    + destruct (Z.eqb_spec 0 c); [lia|]. left. reflexivity.
    + rewrite zl_cons. pose proof (zl_nonneg m). destruct (Z.eqb_spec x c); [right; exists i; split; [reflexivity|lia]|]. destruct (Z.eqb_spec x 0); [lia|].
      destruct (IH (i + 1)) as [E|(f & E & Hf)]; [left; exact E|right; exists f; split; [exact E|lia]].
  - cbn [strchr]. rewrite zl_cons. destruct (Z.eqb_spec x c); [lia|]. destruct (Z.eqb_spec x 0); [lia|].
    destruct (IH (i + 1)) as [E|(f & E & Hf)]; [left; exact E|right; exists f; split; [exact E|lia]].
Qed.
Lemma skipn_zl {A} (pre l : list A) : skipn (Z.to_nat (zl pre)) (pre ++ l) = l.
Proof. unfold zl. rewrite Nat2Z.id, skipn_app, skipn_all, Nat.sub_diag. reflexivity. Qed.
Lemma find_ok c pre (a m : list Z) le : c <> 0 -> Forall (fun x => x <> c /\ x <> 0) a -> Forall (fun x => x <> 0) m -> zl (pre ++ a ++ m) <= le -> le <= kNotFound ->
  exists en, find (pre ++ a ++ m ++ [0]) le (zl pre) c = Ok en /\ zl pre + zl a <= en.
Proof.
  intros Hc HA HM Hle HK. unfold find. rewrite skipn_zl. rewrite !zl_app in Hle. pose proof (zl_nonneg m).
  destruct (strchr_ok c a m Hc HA HM (zl pre)) as [E|(f & E & Hf)]; rewrite E; cbn [bind].
  - exists kNotFound. split; [reflexivity|lia].
  - destruct (Z.ltb_spec f le); [|lia]. cbn [guard bind]. exists f. split; [reflexivity|lia].
Qed.
Lemma digit_ne ds c : Forall is_digit ds -> nondigit c -> c <> 0 -> Forall (fun x => x <> c /\ x <> 0) ds.
Proof. intros H Hc H0. eapply Forall_impl; [|exact H]. intros x Hx. unfold is_digit, nondigit in *. lia. Qed.
Lemma digit_nz ds : Forall is_digit ds -> Forall (fun x => x <> 0) ds.
Proof. intros H. eapply Forall_impl; [|exact H]. intros x Hx. unfold is_digit in *. lia. Qed.
Lemma parse_lp_ok pre ds v c post le max_lp en : decimal ds v -> nondigit c -> v <= max_lp -> zl pre + zl ds <= en -> zl pre + zl ds <= le ->
  parse_lp (pre ++ ds ++ c :: post) le max_lp (zl pre) en = Ok (zl pre + zl ds, v).
Proof.
  intros HD HC HV He Hl. unfold parse_lp. rewrite (parse_digits_ok pre ds v c post (Z.min en le) HD HC) by lia. cbn [bind guard].
  destruct (Z.leb_spec v max_lp); [|lia]. cbn [guard bind]. destruct (Z.leb_spec (zl pre + zl ds) (Z.min en le)); [|lia]. reflexivity.
Qed.
Definition item_clean (i : item) : Prop := match i with One ds => Forall is_digit ds | Range a b => Forall is_digit a /\ Forall is_digit b end.
Lemma item_ok_clean m i : item_ok m i -> item_clean i.
Proof. destruct i; cbn; [intros (v & (_ & H & _) & _); exact H|intros (v1 & v2 & (_ & H1 & _) & (_ & H2 & _) & _); split; assumption]. Qed.
Lemma item_nz i : item_clean i -> Forall (fun x => x <> 0) (item_text i).
Proof. destruct i; cbn; [apply digit_nz|intros [H1 H2]; apply Forall_app; split; [apply digit_nz; exact H1|constructor; [lia|apply digit_nz; exact H2]]]. Qed.
Lemma list_nz m its : Forall (item_ok m) its -> Forall (fun x => x <> 0) (list_text its).
Proof.
  induction 1 as [|i its Hi H IH]; [constructor|]. cbn [list_text]. apply item_ok_clean in Hi. apply item_nz in Hi. destruct its; [exact Hi|].
  apply Forall_app. split; [exact Hi|]. constructor; [lia|exact IH].
Qed.
(** text that may follow an item *)
Lemma expand_tail its nl : Forall (fun x => x <> 0) (list_text its) -> (nl = [] \/ nl = [10]) ->
  exists c post, (match its with [] => [] | _ => [44] ++ list_text its end) ++ nl ++ [0] = c :: post /\ nondigit c /\ c <> 45 /\
    exists m, (match its with [] => [] | _ => [44] ++ list_text its end) ++ nl = m /\ Forall (fun x => x <> 0) m /\ (its = [] -> c = 0 \/ c = 10) /\ (its <> [] -> c = 44).
Proof.
  intros HN Hnl. destruct its as [|i its].
  - destruct Hnl as [-> | ->]; cbn [app].
    + exists 0, []. split; [reflexivity|]. split; [unfold nondigit; lia|]. split; [lia|]. exists []. split; [reflexivity|]. split; [constructor|]. split; [left; reflexivity|congruence].
    + exists 10, [0]. split; [reflexivity|]. split; [unfold nondigit; lia|]. split; [lia|]. exists [10]. split; [reflexivity|]. split; [repeat constructor; lia|]. split; [right; reflexivity|congruence].
  - eexists 44, _. split; [reflexivity|]. split; [unfold nondigit; lia|]. split; [lia|]. eexists. split; [reflexivity|]. split.
    + constructor; [lia|]. apply Forall_app. split; [exact HN|]. destruct Hnl as [-> | ->]; repeat constructor; lia.
    + split; [congruence|reflexivity].
Qed.
Lemma list_text_cons i its : list_text (i :: its) = item_text i ++ (match its with [] => [] | _ => [44] ++ list_text its end).
Proof. destruct its; [cbn [list_text]; rewrite app_nil_r; reflexivity|reflexivity]. Qed.
Lemma expand_ok max_lp its : Forall (item_ok max_lp) its -> its <> [] -> forall fuel pre nl le acc, (length its <= fuel)%nat -> (nl = [] \/ nl = [10]) ->
  zl (pre ++ list_text its ++ nl) <= le <= zl (pre ++ list_text its ++ nl) + 1 -> le <= kNotFound ->
  expand fuel (pre ++ list_text its ++ nl ++ [0]) le max_lp (zl pre) acc = Ok (acc ++ flat_map item_lps its).
Proof.
  induction 1 as [|i its Hi HF IH]; intros HNE fuel pre nl le acc Hfu Hnl Hle HK; [congruence|]. clear HNE.
  cbn [length] in Hfu. destruct fuel as [|fuel]; [lia|].
  destruct (expand_tail its nl (list_nz _ _ HF) Hnl) as (c & post & ET & Hc & Hc45 & m & Em & Hm & Hc0 & Hc1).
  rewrite list_text_cons in *. set (tl := match its with [] => [] | _ => [44] ++ list_text its end) in *.
  assert (Em' : m ++ [0] = c :: post) by (rewrite <- Em, <- app_assoc; exact ET).
  rewrite <- (app_assoc (item_text i)) in Hle |- *. rewrite Em in Hle. rewrite (app_assoc tl), Em.
  pose proof (zl_nonneg pre) as Zp. pose proof (zl_nonneg m) as Zm.
  (* after the item: *)
  assert (TAIL : forall acc', (if zl (pre ++ item_text i) =? le then Ok acc' else
      do c0 <- at_ (pre ++ item_text i ++ m ++ [0]) (zl (pre ++ item_text i));
      if (c0 =? 0) || (c0 =? 10) then Ok acc' else if c0 =? 44 then expand fuel (pre ++ item_text i ++ m ++ [0]) le max_lp (zl (pre ++ item_text i) + 1) acc' else Abort)
      = Ok (acc' ++ flat_map item_lps its)).
  { intros acc'. assert (HD : its = [] \/ its <> []) by (destruct its; [left; reflexivity|right; congruence]).
    destruct HD as [->|HN].
    - cbn [flat_map]. rewrite app_nil_r. destruct (Z.eqb_spec (zl (pre ++ item_text i)) le); [reflexivity|].
      rewrite (app_assoc pre), Em', at_ok. cbn [bind]. destruct (Hc0 eq_refl) as [-> | ->]; reflexivity.
    - specialize (Hc1 HN). subst c. destruct (Z.eqb_spec (zl (pre ++ item_text i)) le) as [E|_].
      { exfalso. rewrite !zl_app in *. assert (1 <= zl m); [|lia]. destruct m as [|x m]; [|rewrite zl_cons; pose proof (zl_nonneg m); lia]. cbn [app] in Em'. congruence. }
      rewrite (app_assoc pre), Em', at_ok. cbn [bind]. change (44 =? 0) with false. change (44 =? 10) with false. change (44 =? 44) with true. cbn [orb].
      assert (EM2 : m = [44] ++ list_text its ++ nl) by (rewrite <- Em; unfold tl; destruct its; [congruence|]; rewrite <- app_assoc; reflexivity).
      rewrite <- Em', EM2. replace ((pre ++ item_text i) ++ ([44] ++ list_text its ++ nl) ++ [0]) with ((pre ++ item_text i ++ [44]) ++ list_text its ++ nl ++ [0]) by (rewrite <- !app_assoc; reflexivity).
      replace (zl (pre ++ item_text i) + 1) with (zl (pre ++ item_text i ++ [44])) by (rewrite !zl_app; change (zl [44]) with 1; lia).
      apply IH; [exact HN|lia|exact Hnl| |exact HK]. rewrite EM2 in Hle. rewrite <- !app_assoc. exact Hle. }
  cbn [expand]. destruct i as [ds|ds1 ds2].
  - destruct Hi as (v & HD & HV). assert (HFd : Forall is_digit ds) by apply HD. cbn [item_text] in *.
    rewrite !zl_app in Hle.
    destruct (find_ok 45 pre ds m le) as (e1 & E1 & H1); [lia|apply digit_ne; [exact HFd|unfold nondigit; lia|lia]|exact Hm|rewrite !zl_app; lia|exact HK|].
    destruct (find_ok 44 pre ds m le) as (e2 & E2 & H2); [lia|apply digit_ne; [exact HFd|unfold nondigit; lia|lia]|exact Hm|rewrite !zl_app; lia|exact HK|].
    rewrite E1. cbn [bind]. rewrite E2. cbn [bind]. rewrite Em' in *.
    rewrite (parse_lp_ok pre ds v c post le max_lp _ HD Hc HV) by lia. cbn [bind].
    rewrite <- zl_app. rewrite (app_assoc pre), at_ok. cbn [bind]. destruct (Z.eqb_spec c 45); [congruence|]. cbn [bind].
    rewrite <- (app_assoc pre). rewrite TAIL. cbn [flat_map item_lps]. destruct HD as (_ & _ & ->). rewrite <- app_assoc. reflexivity.
  - destruct Hi as (v1 & v2 & HD1 & HD2 & HV12 & HV). assert (HF1 : Forall is_digit ds1) by apply HD1. assert (HF2 : Forall is_digit ds2) by apply HD2. cbn [item_text] in *.
    assert (Hle' : zl pre + zl ds1 + 1 + zl ds2 + zl m <= le) by (rewrite !zl_app in Hle; change (zl [45]) with 1 in Hle; lia).
    pose proof (zl_nonneg ds1). pose proof (zl_nonneg ds2).
    assert (Hm2 : Forall (fun x => x <> 0) ([45] ++ ds2 ++ m)) by (constructor; [lia|apply Forall_app; split; [apply digit_nz; exact HF2|exact Hm]]).
    replace (pre ++ (ds1 ++ [45] ++ ds2) ++ m ++ [0]) with (pre ++ ds1 ++ ([45] ++ ds2 ++ m) ++ [0]) in * by (rewrite <- !app_assoc; reflexivity).
    destruct (find_ok 45 pre ds1 ([45] ++ ds2 ++ m) le) as (e1 & E1 & H1); [lia|apply digit_ne; [exact HF1|unfold nondigit; lia|lia]|exact Hm2|rewrite !zl_app; change (zl [45]) with 1; lia|exact HK|].
    destruct (find_ok 44 pre ds1 ([45] ++ ds2 ++ m) le) as (e2 & E2 & H2); [lia|apply digit_ne; [exact HF1|unfold nondigit; lia|lia]|exact Hm2|rewrite !zl_app; change (zl [45]) with 1; lia|exact HK|].
    rewrite E1. cbn [bind]. rewrite E2. cbn [bind].
    assert (P1 := parse_lp_ok pre ds1 v1 45 (ds2 ++ m ++ [0]) le max_lp (Z.min e1 e2) HD1 ltac:(unfold nondigit; lia) ltac:(lia) ltac:(lia) ltac:(lia)).
    replace (pre ++ ds1 ++ 45 :: ds2 ++ m ++ [0]) with (pre ++ ds1 ++ ([45] ++ ds2 ++ m) ++ [0]) in P1 by (rewrite <- !app_assoc; reflexivity).
    rewrite P1. cbn [bind]. rewrite <- zl_app.
    assert (A1 := at_ok (pre ++ ds1) 45 (ds2 ++ m ++ [0])). replace ((pre ++ ds1) ++ 45 :: ds2 ++ m ++ [0]) with (pre ++ ds1 ++ ([45] ++ ds2 ++ m) ++ [0]) in A1 by (rewrite <- !app_assoc; reflexivity).
    rewrite A1. cbn [bind]. change (45 =? 45) with true. cbn iota.
    replace (zl (pre ++ ds1) + 1) with (zl (pre ++ ds1 ++ [45])) by (rewrite !zl_app; change (zl [45]) with 1; lia).
    destruct (find_ok 44 (pre ++ ds1 ++ [45]) ds2 m le) as (e3 & E3 & H3); [lia|apply digit_ne; [exact HF2|unfold nondigit; lia|lia]|exact Hm|rewrite !zl_app; change (zl [45]) with 1; lia|exact HK|].
    replace ((pre ++ ds1 ++ [45]) ++ ds2 ++ m ++ [0]) with (pre ++ ds1 ++ ([45] ++ ds2 ++ m) ++ [0]) in E3 by (rewrite <- !app_assoc; reflexivity).
    rewrite E3. cbn [bind].
    assert (P2 := parse_lp_ok (pre ++ ds1 ++ [45]) ds2 v2 c post le max_lp e3 HD2 Hc HV H3 ltac:(rewrite !zl_app; change (zl [45]) with 1; lia)).
    replace ((pre ++ ds1 ++ [45]) ++ ds2 ++ c :: post) with (pre ++ ds1 ++ ([45] ++ ds2 ++ m) ++ [0]) in P2 by (rewrite <- Em', <- !app_assoc; reflexivity).
    rewrite P2. cbn [bind]. pose proof (zl_nonneg acc). destruct (Z.leb_spec 0 (zl acc + v2 - v1 + 1)); [|lia]. cbn [guard bind].
    replace (zl (pre ++ ds1 ++ [45]) + zl ds2) with (zl (pre ++ ds1 ++ [45] ++ ds2)) by (rewrite !zl_app; lia).
    rewrite TAIL. cbn [flat_map item_lps]. destruct HD1 as (_ & _ & ->). destruct HD2 as (_ & _ & ->). rewrite <- app_assoc. reflexivity.
Qed.
Lemma its_len m its : Forall (item_ok m) its -> (length its <= length (list_text its))%nat.
Proof.
  induction 1 as [|i its Hi H IH]; [reflexivity|]. rewrite list_text_cons, app_length. cbn [length].
  assert (1 <= length (item_text i))%nat.
  { destruct i; cbn [item_ok item_text] in *; [destruct Hi as (v & (HL & _) & _); lia|destruct Hi as (v1 & v2 & (HL & _) & _); rewrite app_length; lia]. }
  destruct its; [cbn; lia|]. rewrite app_length. lia.
Qed.
Lemma expand_list_ok max_lp its nl le : Forall (item_ok max_lp) its -> its <> [] -> (nl = [] \/ nl = [10]) ->
  zl (list_text its ++ nl) <= le <= zl (list_text its ++ nl) + 1 -> le <= kNotFound ->
  expand_list (list_text its ++ nl ++ [0]) le max_lp = Ok (flat_map item_lps its).
Proof.
  intros HF HN Hnl Hle HK. unfold expand_list. apply (expand_ok max_lp its HF HN _ [] nl le []); try assumption.
  rewrite app_length. assert (L := its_len _ _ HF). lia.
Qed.
