(** Property theorems C57-C61: dynamic dispatch and CPU detection
    (hwy/targets.h, hwy/targets.cc, hwy/highway.h). *)
From Coq Require Import ZArith List Lia Bool Sorting.Sorted.
From Verif Require Import Word Word_Proofs Targets_Model Targets_Spec Targets_Proofs.
Import ListNotations.
Local Open Scope Z_scope.

(** C57 (one thread).  For every architecture, compiled set of targets,
    detected set and history of DisableTargets / SetSupportedTargetsForTest /
    SupportedTargets / dispatched calls: SupportedTargets returns the documented
    set and each dispatched call reaches the best compiled target in it (the
    fallback if there is none).  Missing: histories with a direct
    SupportedTargets() call while a detected target is disabled. *)
Theorem C57_dispatch_best_partial : forall a targets static lib_static det ops,
  In a all_archs -> unit_ok a targets static -> det_ok det -> Forall op_args ops -> queries_harmless det 0 0 ops ->
  exists res s, drun a targets static lib_static det ops d_init = Some (res, s) /\
    spec_results a targets static lib_static det 0 0 ops res.
Proof.
  intros a targets static lib_static det ops Ha HU HD HF HQ.
  apply drun_ok; auto using all_archs_ok, SInv_init.
Qed.
Print Assumptions C57_dispatch_best_partial.
Definition x86_units : Z := Z.lor (Z.lor (tbit AVX3) (tbit AVX2)) (Z.lor (tbit SSE4) (tbit SSE2)).
Definition x86_det : Z := fold_right Z.lor 0 (map tbit [AVX3; AVX2; SSE4; SSSE3; SSE2; EMU128; SCALAR]).
Lemma x86_unit_ok : unit_ok x86 x86_units SSE2.
Proof.
  split; [reflexivity|]. intros t Ht. unfold member.
  assert (E : x86_units = 2 ^ 8 + 2 ^ 9 + 2 ^ 11 + 2 ^ 14) by reflexivity.
  intros H. assert (t < 15). { destruct (Z.ltb_spec t 15); [assumption|]. rewrite (testbit_small x86_units 15 t) in H; [discriminate| |lia]. rewrite E. lia. }
  assert (C : In t (map Z.of_nat (seq 0 15))) by (apply in_map_iff; exists (Z.to_nat t); split; [lia|apply in_seq; lia]).
  cbn [seq map Z.of_nat Pos.of_succ_nat Pos.succ In] in C. unfold dynamic. cbn [x86 a_list In].
  repeat (destruct C as [<-|C]; [vm_compute in H; try discriminate; left; vm_compute; tauto|]). destruct C.
Qed.
Lemma x86_det_ok : det_ok x86_det.
Proof. split; [split; vm_compute; congruence|]. split; reflexivity. Qed.
Example C57_ex : Forall op_args [ODispatch; OQuery; ODisable (tbit AVX3); ODispatch; ODisable (-1); ODispatch; OMock (tbit SSE4); ODisable 0; ODispatch; OQuery] /\
  queries_harmless x86_det 0 0 [ODispatch; OQuery; ODisable (tbit AVX3); ODispatch; ODisable (-1); ODispatch; OMock (tbit SSE4); ODisable 0; ODispatch; OQuery] /\
  option_map fst (drun x86 x86_units SSE2 SSE2 x86_det [ODispatch; OQuery; ODisable (tbit AVX3); ODispatch; ODisable (-1); ODispatch; OMock (tbit SSE4); ODisable 0; ODispatch; OQuery] d_init)
    = Some [AVX3; x86_det; AVX2; SSE2; SSE4; tbit SSE4].
Proof. split; [repeat constructor; vm_compute; congruence|]. split; [cbn; intuition; right; reflexivity|reflexivity]. Qed.

(** C57 is false as stated: DisableTargets(AVX3), then merely asking
    SupportedTargets(), and the next dispatched call runs AVX3: the query
    re-initializes the chosen target with the unmasked detection result. *)
Theorem C57_dispatch_best_refuted : exists targets static det d s,
  unit_ok x86 targets static /\ det_ok det /\
  drun x86 targets static static det [ODisable d; OQuery; ODispatch] d_init = Some ([Z.land det (Z.lnot d); AVX3], s) /\
  member AVX3 d /\ ~ member AVX3 (available static det d 0) /\ member AVX2 (available static det d 0) /\ member AVX2 targets.
Proof.
  exists x86_units, SSE2, x86_det, (tbit AVX3). eexists. split; [apply x86_unit_ok|]. split; [apply x86_det_ok|].
  split; [vm_compute; reflexivity|]. split; [reflexivity|]. split; [discriminate|]. split; reflexivity.
Qed.
Print Assumptions C57_dispatch_best_refuted.

(** The same without a query, with two threads whose first dispatched calls
    overlap: thread 0 has disabled AVX3 before thread 1 starts. *)
Theorem C57_concurrent_refuted : exists s,
  crun x86 x86_units SSE2 SSE2 x86_det [(0, ADisable (tbit AVX3)); (0, AStep); (1, ADispatch); (1, AStep); (0, ADispatch)] c_init = Some s /\
  c_calls s = [(0, AVX3)].
Proof. eexists. split; [vm_compute; reflexivity|]. reflexivity. Qed.
Print Assumptions C57_concurrent_refuted.

(** C58.  Whatever the interleaving of any number of threads calling
    DisableTargets, SetSupportedTargetsForTest, SupportedTargets and dispatched
    functions: no call goes through a null or out-of-range table entry, and
    without mocks of targets the CPU lacks every called function was compiled
    and belongs to a target the CPU has (or is the fallback / the library's
    static target). *)
Theorem C58_concurrent_dispatch_defined : forall a targets static lib_static det s th act,
  In a all_archs -> unit_ok a targets static -> det_ok det ->
  creach a targets static lib_static det (fun _ => True) s -> cenabled th act s = true ->
  exists s', cstep a targets static lib_static det th act s = Some s'.
Proof.
  intros a targets static lib_static det s th act Ha HU HD HR HE.
  apply (cstep_defined a (all_archs_ok a Ha) targets static lib_static det HU (fun _ => True) (fun _ => True)); auto.
  apply (CInv_reach a (all_archs_ok a Ha) targets static lib_static det HU (fun _ => True) (fun _ => True) (fun _ => True)); auto.
Qed.
Print Assumptions C58_concurrent_dispatch_defined.
Definition no_foreign_mock (det : Z) (act : dact) : Prop :=
  match act with AMock t => forall u, 0 <= u -> member u t -> member u det | _ => True end.
Theorem C58_only_supported_code : forall a targets static lib_static det s th t,
  In a all_archs -> unit_ok a targets static -> det_ok det ->
  creach a targets static lib_static det (no_foreign_mock det) s -> In (th, t) (c_calls s) ->
  (dynamic a t /\ member t targets /\ (member t det \/ t = lib_static)) \/ last_resort targets static t.
Proof.
  intros a targets static lib_static det s th t Ha HU HD HR HC.
  set (P := fun x => forall u, 0 <= u -> member u x -> member u det \/ u = lib_static).
  assert (HI : CInv a targets static P (fun _ => True) s).
  { apply (CInv_reach a (all_archs_ok a Ha) targets static lib_static det HU P (fun _ => True) (no_foreign_mock det)); auto.
    - intros u _ H. now left.
    - intros x m HPx _. destruct (Z.land x m =? 0).
      + intros u Hu H. right. unfold member in H. destruct (Z.ltb_spec lib_static 0).
        * rewrite Z.shiftl_div_pow2 in H by lia. assert (E : 1 / 2 ^ (- lib_static) = 0) by (apply Z.div_small; split; [lia|]; apply Z.pow_gt_1; lia).
          rewrite E, Z.bits_0 in H. discriminate.
        * rewrite testbit_one_shl in H by lia. now apply Z.eqb_eq.
      + intros u Hu H. apply HPx; [exact Hu|]. unfold member in *. rewrite Z.land_spec in H. now apply andb_prop in H.
    - intros m H. destruct (Z.eq_dec m 0); [now left|]. right. intros u Hu Hm. left. now apply H. }
  destruct HI as (_ & _ & _ & _ & F). rewrite Forall_forall in F. specialize (F _ HC). cbn [snd] in F.
  destruct F as (x & Px & [(D & Mt & Mx & _)|(_ & L)]); [left|right; exact L].
  split; [exact D|]. split; [exact Mt|]. apply Px; [|exact Mx].
  destruct (all_archs_ok a Ha) as (O & _ & _ & A & _). apply In_nth_error in D as (k & E). rewrite (A k t E). lia.
Qed.
Print Assumptions C58_only_supported_code.
(** with no DisableTargets / mock, every thread's every call gets the best target *)
Theorem C58_best_without_disabling : forall a targets static lib_static det s th t,
  In a all_archs -> unit_ok a targets static -> det_ok det ->
  creach a targets static lib_static det (fun act => act = AQuery \/ act = ADispatch \/ act = AStep) s -> In (th, t) (c_calls s) ->
  selects a targets static det t.
Proof.
  intros a targets static lib_static det s th t Ha HU HD HR HC.
  assert (HI : CInv a targets static (fun x => x = det) (fun m => m = 2 ^ 63 - 1) s).
  { apply (CInv_reach a (all_archs_ok a Ha) targets static lib_static det HU (fun x => x = det) (fun m => m = 2 ^ 63 - 1) (fun act => act = AQuery \/ act = ADispatch \/ act = AStep)); auto.
    - intros x m -> ->. destruct HD as (R & M1 & _). change (2 ^ 63 - 1) with (Z.ones 63). rewrite Z.land_ones, Z.mod_small by lia.
      destruct (Z.eqb_spec det 0) as [E|]; [|reflexivity]. unfold member in M1. rewrite E, Z.bits_0 in M1. discriminate.
    - intros d [H|[H|H]]; discriminate.
    - intros d [H|[H|H]]; discriminate. }
  destruct HI as (_ & _ & _ & _ & F). rewrite Forall_forall in F. specialize (F _ HC). cbn [snd] in F.
  destruct F as (x & -> & S). exact S.
Qed.
Print Assumptions C58_best_without_disabling.
Example C58_ex : exists s, crun x86 x86_units SSE2 SSE2 x86_det
  [(0, ADispatch); (1, ADispatch); (0, AStep); (1, AStep); (2, ADispatch); (1, AStep); (0, AStep); (0, AStep); (0, AStep); (1, AStep); (1, AStep)] c_init = Some s /\
  c_calls s = [(1, AVX3); (0, AVX3); (2, AVX3)].
Proof. eexists. split; [vm_compute; reflexivity|]. reflexivity. Qed.

(** C59: exactly when each x86 target is reported (default configuration, not macOS). *)
Theorem C59_x86_detection : forall cpuid x64 amd xcr0, let r t := member t (x86_detect cpuid x64 amd xcr0) in
  (r SSE2 <-> x64 = true \/ cpu_all cpuid need_SSE2) /\
  (r SSSE3 <-> cpu_all cpuid need_SSSE3) /\
  (r SSE4 <-> cpu_all cpuid need_SSE4) /\
  (r AVX2 <-> cpu_all cpuid need_AVX2 /\ os_ymm cpuid xcr0) /\
  (r AVX3 <-> (cpu_all cpuid need_AVX3 \/ avx10_512 cpuid) /\ os_zmm cpuid xcr0) /\
  (r AVX3_DL <-> (cpu_all cpuid need_AVX3_DL \/ avx10_512 cpuid) /\ os_zmm cpuid xcr0) /\
  (r AVX3_SPR <-> (cpu_all cpuid need_AVX3_SPR \/ avx10_512 cpuid) /\ os_zmm cpuid xcr0) /\
  (r AVX3_ZEN4 <-> cpu_all cpuid need_AVX3_ZEN4 /\ os_zmm cpuid xcr0 /\ amd = true) /\
  (r AVX10_2 <-> avx10_version_ge cpuid 2 /\ os_ymm cpuid xcr0) /\
  (r AVX10_2_512 <-> avx10_version_ge cpuid 2 /\ avx10_512 cpuid /\ os_ymm cpuid xcr0).
Proof.
  intros cpuid x64 amd xcr0 r.
  assert (D : forall t, In t [AVX10_2_512; AVX3_SPR; AVX10_2; AVX3_DL; AVX3; AVX2; SSE4; SSSE3; SSE2] -> (r t <-> pre cpuid x64 xcr0 t = true)).
  { intros t Ht. unfold r, member. destruct (detect_bits cpuid x64 amd xcr0 t Ht) as (-> & _). reflexivity. }
  assert (Z4 : r AVX3_ZEN4 <-> pre cpuid x64 xcr0 AVX3_DL && has cpuid gAVX3_ZEN4 && amd = true).
  { unfold r, member. destruct (detect_bits cpuid x64 amd xcr0 SSE2) as (_ & ->); [cbn; tauto|reflexivity]. }
  assert (SUB : cpu_all cpuid need_AVX3_ZEN4 -> cpu_all cpuid need_AVX3_DL) by (intros H f Hf; apply H; unfold need_AVX3_ZEN4; apply in_or_app; now left).
  rewrite Z4. rewrite !D by (cbn [In]; tauto).
  change (pre cpuid x64 xcr0 SSE2) with (x64 || has cpuid gSSE2). change (pre cpuid x64 xcr0 SSSE3) with (has cpuid gSSSE3).
  change (pre cpuid x64 xcr0 SSE4) with (has cpuid gSSE4). change (pre cpuid x64 xcr0 AVX2) with (has cpuid gAVX2 && ymm cpuid xcr0).
  change (pre cpuid x64 xcr0 AVX3) with ((has cpuid gAVX3 || v512 cpuid) && zmm cpuid xcr0).
  change (pre cpuid x64 xcr0 AVX3_DL) with ((has cpuid gAVX3_DL || v512 cpuid) && zmm cpuid xcr0).
  change (pre cpuid x64 xcr0 AVX3_SPR) with ((has cpuid gAVX3_SPR || v512 cpuid) && zmm cpuid xcr0).
  change (pre cpuid x64 xcr0 AVX10_2) with (v10 cpuid 2 && ymm cpuid xcr0).
  change (pre cpuid x64 xcr0 AVX10_2_512) with (v10 cpuid 2 && v512 cpuid && ymm cpuid xcr0).
  rewrite !andb_true_iff, !orb_true_iff, (hSSE2 cpuid xcr0), (hSSSE3 cpuid xcr0), (hSSE4 cpuid xcr0), (hAVX2 cpuid xcr0), (hAVX3 cpuid xcr0), (hAVX3_DL cpuid xcr0), (hAVX3_SPR cpuid xcr0), (hAVX3_ZEN4 cpuid xcr0), (v512_ok cpuid xcr0), (ymm_ok cpuid xcr0), (zmm_ok cpuid xcr0), (v10_ok cpuid xcr0).
  split; [tauto|]. split; [tauto|]. split; [tauto|]. split; [tauto|]. split; [tauto|]. split; [tauto|]. split; [tauto|]. split; [|split; tauto].
  split; [tauto|]. intros (A & B & C). pose proof (SUB A). tauto.
Qed.
Print Assumptions C59_x86_detection.
(** a better x86 target is never reported without the worse ones it builds on *)
Theorem C59_x86_ladder : forall cpuid x64 amd xcr0, let r t := member t (x86_detect cpuid x64 amd xcr0) in
  (r AVX3_SPR -> r AVX3_DL) /\ (r AVX3_ZEN4 -> r AVX3_DL) /\ (r AVX3_DL -> r AVX3) /\ (r AVX3 -> r AVX2) /\
  (r AVX10_2_512 -> r AVX10_2) /\ (r AVX10_2 -> r AVX2) /\ (r AVX2 -> r SSE4) /\ (r SSE4 -> r SSSE3) /\ (r SSSE3 -> r SSE2).
Proof.
  intros cpuid x64 amd xcr0 r. pose proof (C59_x86_detection cpuid x64 amd xcr0) as H. cbn zeta in H. fold r in H.
  destruct H as (H1 & H2 & H3 & H4 & H5 & H6 & H7 & H8 & H9 & H10).
  assert (SUB : forall l l', (forall f, In f l -> In f l') -> cpu_all cpuid l' -> cpu_all cpuid l) by (intros l l' I A f Hf; auto).
  assert (S1 : cpu_all cpuid need_AVX3_SPR -> cpu_all cpuid need_AVX3_DL) by (apply SUB; intros f Hf; unfold need_AVX3_SPR, need_AVX3_ZEN4; rewrite !in_app_iff; tauto).
  assert (S2 : cpu_all cpuid need_AVX3_ZEN4 -> cpu_all cpuid need_AVX3_DL) by (apply SUB; intros f Hf; unfold need_AVX3_ZEN4; rewrite !in_app_iff; tauto).
  assert (S3 : cpu_all cpuid need_AVX3_DL -> cpu_all cpuid need_AVX3) by (apply SUB; intros f Hf; unfold need_AVX3_DL; rewrite !in_app_iff; tauto).
  assert (S4 : cpu_all cpuid need_AVX3 -> cpu_all cpuid need_AVX2) by (apply SUB; intros f Hf; unfold need_AVX3; rewrite !in_app_iff; tauto).
  assert (S5 : cpu_all cpuid need_AVX10 -> cpu_all cpuid need_AVX2) by (apply SUB; intros f Hf; unfold need_AVX10; rewrite !in_app_iff; tauto).
  assert (S6 : cpu_all cpuid need_AVX2 -> cpu_all cpuid need_SSE4) by (apply SUB; intros f Hf; unfold need_AVX2; rewrite !in_app_iff; tauto).
  assert (S7 : cpu_all cpuid need_SSE4 -> cpu_all cpuid need_SSSE3) by (apply SUB; intros f Hf; cbn [In need_SSE4 need_SSSE3] in *; tauto).
  assert (S8 : cpu_all cpuid need_SSSE3 -> cpu_all cpuid need_SSE2) by (apply SUB; intros f Hf; cbn [In need_SSE2 need_SSSE3] in *; tauto).
  assert (OS : os_zmm cpuid xcr0 -> os_ymm cpuid xcr0).
  { intros (A & B & C). split; [exact A|]. split; [exact B|]. intros c Hc. apply C. cbn [In] in *. tauto. }
  unfold avx10_512, avx10_version_ge in *. tauto.
Qed.
Print Assumptions C59_x86_ladder.
(** concrete machines: leaf 1 / 7 / 0x80000001 as of Skylake-X, Zen 4 and an
    AVX10.2 part, and the same without OS support *)
Definition mk_cpuid (fs : list feature) (max_leaf avx10_ebx : Z) (leaf sub reg : Z) : Z :=
  if (leaf =? 0) && (reg =? 0) then max_leaf
  else if (leaf =? 36) && (reg =? 1) then avx10_ebx
  else fold_right Z.lor (if (leaf =? 1) && (reg =? 2) then 3 * 2 ^ 26 else 0)
    (map (fun f => let '(l, s, r, b) := cpuid_bit f in if (leaf =? l) && (sub =? s) && (reg =? r) then tbit b else 0) fs).
Example C59_ex_skx : x86_detect (mk_cpuid need_AVX3 22 0) true false 231 = fold_right Z.lor 0 (map tbit [AVX3; AVX2; SSE4; SSSE3; SSE2]).
Proof. vm_compute. reflexivity. Qed.
Example C59_ex_skx_noavx512_os : x86_detect (mk_cpuid need_AVX3 22 0) true false 7 = fold_right Z.lor 0 (map tbit [AVX2; SSE4; SSSE3; SSE2]).
Proof. vm_compute. reflexivity. Qed.
Example C59_ex_zen4 : x86_detect (mk_cpuid need_AVX3_ZEN4 16 0) true true 231 = fold_right Z.lor 0 (map tbit [AVX3_ZEN4; AVX3_DL; AVX3; AVX2; SSE4; SSSE3; SSE2]).
Proof. vm_compute. reflexivity. Qed.
Example C59_ex_avx10 : x86_detect (mk_cpuid (need_AVX3_SPR ++ need_AVX10) 36 (2 + 2 ^ 18)) true false 231 =
  fold_right Z.lor 0 (map tbit [AVX10_2_512; AVX10_2; AVX3_SPR; AVX3_DL; AVX3; AVX2; SSE4; SSSE3; SSE2]).
Proof. vm_compute. reflexivity. Qed.

(** C60: SupportedAndGeneratedTargets() lists every supported and compiled
    target exactly once, best (lowest bit) first, and its loop ends. [t] is
    SupportedTargets() & HWY_TARGETS. *)
Theorem C60_generated_targets : forall t, 0 <= t < 2 ^ 63 -> exists l, generated_targets 64 t = Some l /\
  StronglySorted Z.lt l /\ (forall x, In x l <-> exists b, 0 <= b /\ member b t /\ x = 2 ^ b).
Proof.
  intros t Ht. rewrite (generated_ok 63 0 t 64) by (try lia; intros; lia). eexists. split; [reflexivity|]. split.
  - assert (G : forall n s, StronglySorted Z.lt (map (fun i => 2 ^ (0 + Z.of_nat i)) (filter (fun i => Z.testbit t (0 + Z.of_nat i)) (seq s n))) /\
      forall x, In x (map (fun i => 2 ^ (0 + Z.of_nat i)) (filter (fun i => Z.testbit t (0 + Z.of_nat i)) (seq s n))) -> 2 ^ Z.of_nat s <= x).
    { induction n as [|n IH]; intros s; [split; [constructor|intros x []]|]. cbn [seq filter]. destruct (IH (S s)) as (I1 & I2).
      assert (L : 2 ^ Z.of_nat s < 2 ^ Z.of_nat (S s)) by (apply Z.pow_lt_mono_r; lia).
      destruct (Z.testbit t (0 + Z.of_nat s)); cbn [map]; split.
      - constructor; [exact I1|]. apply Forall_forall. intros x Hx. specialize (I2 x Hx). rewrite Z.add_0_l. lia.
      - intros x [<-|Hx]; [rewrite Z.add_0_l; lia|]. specialize (I2 x Hx). lia.
      - exact I1.
      - intros x Hx. specialize (I2 x Hx). lia. }
    apply G.
  - intros x. rewrite in_map_iff. split.
    + intros (i & <- & Hi). apply filter_In in Hi as (_ & Hi). exists (0 + Z.of_nat i). repeat split; [lia|exact Hi].
    + intros (b & Hb & M & ->). unfold member in M. exists (Z.to_nat b). rewrite Z.add_0_l, Z2Nat.id by lia. split; [reflexivity|].
      apply filter_In. rewrite Z.add_0_l, Z2Nat.id by lia. split; [|exact M]. apply in_seq.
      destruct (Z.ltb_spec b 63); [lia|]. rewrite (testbit_small t 63 b) in M by lia. discriminate.
Qed.
Print Assumptions C60_generated_targets.
Example C60_ex : generated_targets 64 (Z.land x86_det x86_units) = Some [2 ^ 8; 2 ^ 9; 2 ^ 11; 2 ^ 14] /\ 0 <= Z.land x86_det x86_units < 2 ^ 63.
Proof. split; [reflexivity|]. vm_compute. split; congruence. Qed.

(** C61: "a target with 512-bit vectors is only reported when the OS saves the
    ZMM and opmask registers". Proved for AVX3, AVX3_DL, AVX3_ZEN4, AVX3_SPR;
    missing: AVX10_2_512, and the opmask/ZMM16-31 state AVX10_2 needs. *)
Theorem C61_zmm_state_partial : forall cpuid x64 amd xcr0 t, In t [AVX3; AVX3_DL; AVX3_ZEN4; AVX3_SPR] ->
  member t (x86_detect cpuid x64 amd xcr0) -> os_zmm cpuid xcr0.
Proof.
  intros cpuid x64 amd xcr0 t Ht H. pose proof (C59_x86_detection cpuid x64 amd xcr0) as D. cbn zeta in D.
  destruct D as (_ & _ & _ & _ & H5 & H6 & H7 & H8 & _ & _). cbn [In] in Ht.
  destruct Ht as [<-|[<-|[<-|[<-|[]]]]]; tauto.
Qed.
Print Assumptions C61_zmm_state_partial.
(** AVX and above need at least the YMM state *)
Theorem C61_ymm_state : forall cpuid x64 amd xcr0 t, In t [AVX10_2_512; AVX3_SPR; AVX10_2; AVX3_ZEN4; AVX3_DL; AVX3; AVX2] ->
  member t (x86_detect cpuid x64 amd xcr0) -> os_ymm cpuid xcr0.
Proof.
  intros cpuid x64 amd xcr0 t Ht H.
  assert (R : member AVX2 (x86_detect cpuid x64 amd xcr0)).
  { pose proof (C59_x86_ladder cpuid x64 amd xcr0) as L. cbn zeta in L. cbn [In] in Ht.
    destruct Ht as [<-|[<-|[<-|[<-|[<-|[<-|[<-|[]]]]]]]]; tauto. }
  pose proof (C59_x86_detection cpuid x64 amd xcr0) as D. cbn zeta in D. destruct D as (_ & _ & _ & (D & _) & _). now apply D in R.
Qed.
Print Assumptions C61_ymm_state.
Theorem C61_zmm_state_refuted : exists cpuid xcr0,
  member AVX10_2_512 (x86_detect cpuid true false xcr0) /\ ~ os_zmm cpuid xcr0 /\ ~ member AVX3 (x86_detect cpuid true false xcr0).
Proof.
  exists (mk_cpuid (need_AVX3_SPR ++ need_AVX10) 36 (2 + 2 ^ 18)), 7. split; [vm_compute; reflexivity|]. split; [|vm_compute; discriminate].
  intros (_ & _ & C). specialize (C 5 ltac:(cbn; tauto)). discriminate C.
Qed.
Print Assumptions C61_zmm_state_refuted.
