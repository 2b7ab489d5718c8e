(** Model of dynamic dispatch: hwy/targets.h, hwy/targets.cc,
    hwy/detect_targets.h, hwy/highway.h. Masks of targets are [int64_t]; the
    model keeps the two's complement value as an unbounded [Z] (bit 63 is the
    sign, i.e. all bits from 63 on are equal). *)
From Coq Require Import ZArith List Bool.
From Verif Require Import Word Arith_Model.
Import ListNotations.
Local Open Scope Z_scope.

(** ** Architectures *)

(** detect_targets.h 61-142 target bits; targets.h 196-275: number of dynamic
    targets, highest target bit and HWY_CHOOSE_TARGET_LIST. [a_list] gives, for
    each table position, the target whose function HWY_CHOOSE_* names there
    ([None] for the reserved [nullptr] entries). *)
Record arch := { a_max : Z; a_highest : Z; a_list : list (option Z) }.

Definition AVX10_2_512 := 3.  Definition AVX3_SPR := 4.  Definition AVX10_2 := 5.
Definition AVX3_ZEN4 := 6.  Definition AVX3_DL := 7.  Definition AVX3 := 8.
Definition AVX2 := 9.  Definition SSE4 := 11.  Definition SSSE3 := 12.  Definition SSE2 := 14.
Definition SVE2_128 := 18.  Definition SVE_256 := 19.  Definition SVE2 := 23.  Definition SVE := 24.
Definition NEON_BF16 := 26.  Definition NEON := 28.  Definition NEON_WITHOUT_AES := 29.
Definition RVV := 37.  Definition LASX := 40.  Definition LSX := 41.
Definition PPC10 := 47.  Definition PPC9 := 48.  Definition PPC8 := 49.  Definition Z15 := 50.  Definition Z14 := 51.
Definition WASM_EMU256 := 58.  Definition WASM := 59.
Definition EMU128 := 61.  Definition SCALAR := 62.

(** targets.h 199-221 *)
Definition x86 : arch := {| a_max := 15; a_highest := 14; a_list :=
  [None; None; None; Some AVX10_2_512; Some AVX3_SPR; Some AVX10_2; Some AVX3_ZEN4; Some AVX3_DL; Some AVX3; Some AVX2;
   None; Some SSE4; Some SSSE3; None; Some SSE2] |}.
(** targets.h 223-243 *)
Definition arm : arch := {| a_max := 15; a_highest := 29; a_list :=
  [None; None; None; Some SVE2_128; Some SVE_256; None; None; None; Some SVE2; Some SVE; None; Some NEON_BF16; None;
   Some NEON; Some NEON_WITHOUT_AES] |}.
(** targets.h 245-258 *)
Definition riscv : arch := {| a_max := 9; a_highest := 38; a_list :=
  [None; None; None; None; None; None; None; Some RVV; None] |}.
(** targets.h 260-273 *)
Definition ppc_s390x : arch := {| a_max := 9; a_highest := 51; a_list :=
  [None; None; None; None; Some PPC10; Some PPC9; Some PPC8; Some Z15; Some Z14] |}.
(** targets.h 275-288 *)
Definition wasm : arch := {| a_max := 9; a_highest := 60; a_list :=
  [None; None; None; None; None; None; Some WASM_EMU256; Some WASM; None] |}.
(** targets.h 290-297 *)
Definition loongarch : arch := {| a_max := 3; a_highest := 41; a_list := [None; Some LASX; Some LSX] |}.
Definition all_archs : list arch := [x86; arm; riscv; ppc_s390x; wasm; loongarch].

Section A.
Context (a : arch).
(** the translation unit: HWY_TARGETS and HWY_STATIC_TARGET (a bit index) *)
Context (targets : Z) (static : Z).

(** targets.h 180 HWY_CHOSEN_TARGET_MASK_SCALAR *)
Definition mask_scalar : Z := Z.shiftl 1 (a_max a + 1).
(** targets.h 184-187 HWY_CHOSEN_TARGET_SHIFT *)
Definition chosen_shift (x : Z) : Z :=
  Z.shiftl (Z.land (Z.shiftr x (a_highest a + 1 - a_max a)) (Z.shiftl 1 (a_max a) - 1)) 1.
(** targets.h 190-191 HWY_CHOSEN_TARGET_MASK_TARGETS *)
Definition mask_targets : Z := Z.lor (Z.lor (chosen_shift targets) mask_scalar) 1.

(** highway.h 486-500 (HWY_EXPORT): the table. [EInit] is ChooseAndCall. *)
Inductive entry := EInit | ENull | EFunc (target : Z).
(** highway.h 138-335 HWY_CHOOSE_<target>: the function if the target is in HWY_TARGETS *)
Definition choose (t : option Z) : entry :=
  match t with Some b => if Z.testbit targets b then EFunc b else ENull | None => ENull end.
(** highway.h 139-147 HWY_CHOOSE_FALLBACK *)
Definition fallback : Z := if Z.testbit targets EMU128 then EMU128 else if Z.testbit targets SCALAR then SCALAR else static.
Definition table : list entry := EInit :: map choose (a_list a) ++ [EFunc fallback].

(** ** Run-time state: targets.cc 748-751 and targets.h 355 mask_ *)
Record dstate := { d_mask : Z; d_supported_mask : Z; d_mock : Z }.
(** initial values: mask_ 1, supported_mask_ LimitsMax<int64_t>(), mock 0 *)
Definition d_init : dstate := {| d_mask := 1; d_supported_mask := 2 ^ 63 - 1; d_mock := 0 |}.

(** targets.h 316-320 Update *)
Definition update_mask (t : Z) : Z := Z.lor (chosen_shift t) mask_scalar.
Definition set_mask (s : dstate) (m : Z) : dstate := {| d_mask := m; d_supported_mask := d_supported_mask s; d_mock := d_mock s |}.
(** targets.h 337-340 GetIndex (uint64_t conversion; C04's fallback bit scan) *)
Definition get_index (m : Z) : option Z := Num0BitsBelowLS1Bit_Nonzero64_fallback (wrap 64 (Z.land m mask_targets)).
(** table[index]; an index outside the array is undefined: [None] *)
Definition table_at (i : Z) : option entry := if 0 <=? i then nth_error table (Z.to_nat i) else None.

(** targets.cc 753-761 DisableTargets *)
Definition disable_targets (disabled : Z) (s : dstate) : dstate :=
  {| d_mask := 1; d_supported_mask := Z.lnot disabled; d_mock := d_mock s |}.
(** targets.cc 763-766 SetSupportedTargetsForTest *)
Definition set_supported_for_test (t : Z) (s : dstate) : dstate :=
  {| d_mask := 1; d_supported_mask := d_supported_mask s; d_mock := t |}.
(** targets.cc 768-785 SupportedTargets; [det] is what DetectTargets returns.
    The static target of targets.cc is that of the library, [lib_static]. *)
Context (lib_static : Z).
Definition supported_targets (det : Z) (s : dstate) : Z * dstate :=
  let (t, s) := if d_mock s =? 0 then (det, set_mask s (update_mask det)) else (d_mock s, s) in
  let t := Z.land t (d_supported_mask s) in
  (if t =? 0 then Z.shiftl 1 lib_static else t, s).

(** HWY_DYNAMIC_DISPATCH (highway.h 560-566) and FunctionCache::ChooseAndCall
    (405-411): the target whose function is called. A null pointer or an index
    outside the table is undefined ([None]); so is a second EInit (unbounded
    recursion). *)
Definition dispatch (det : Z) (s : dstate) : option (Z * dstate) :=
  match get_index (d_mask s) with
  | None => None
  | Some i =>
    match table_at i with
    | Some (EFunc t) => Some (t, s)
    | Some EInit =>
        let (sup, s1) := supported_targets det s in
        let s2 := set_mask s1 (update_mask sup) in
        match get_index (d_mask s2) with
        | Some j => match table_at j with Some (EFunc t) => Some (t, s2) | _ => None end
        | None => None
        end
    | _ => None
    end
  end.

(** histories of API calls on one thread *)
Inductive dop := ODisable (d : Z) | OMock (t : Z) | OQuery | ODispatch.
(** the results of the OQuery / ODispatch calls, in order *)
Fixpoint drun (det : Z) (ops : list dop) (s : dstate) : option (list Z * dstate) :=
  match ops with
  | [] => Some ([], s)
  | ODisable d :: r => drun det r (disable_targets d s)
  | OMock t :: r => drun det r (set_supported_for_test t s)
  | OQuery :: r => let (q, s1) := supported_targets det s in
                   match drun det r s1 with Some (l, s2) => Some (q :: l, s2) | None => None end
  | ODispatch :: r => match dispatch det s with
                      | Some (t, s1) => match drun det r s1 with Some (l, s2) => Some (t :: l, s2) | None => None end
                      | None => None
                      end
  end.

(** ** Interleaved threads
    Every access to mask_, supported_mask_ and the mock is one atomic step. *)
Inductive dpc :=
| TIdle                     (* between calls *)
| TSup (q : bool)           (* entered SupportedTargets; q: called directly by the user *)
| TMask (q : bool) (t : Z)  (* targets chosen, about to read supported_mask_ *)
| TUpdate (t : Z)           (* ChooseAndCall: about to Update *)
| TIndex                    (* ChooseAndCall: about to GetIndex and call *)
| TDeInit                   (* DisableTargets / SetSupportedTargetsForTest: about to DeInit *).
Inductive dact := ADisable (d : Z) | AMock (t : Z) | AQuery | ADispatch | AStep.
Record cstate := { c_shared : dstate; c_pc : Z -> dpc; c_calls : list (Z * Z) (* thread, called target; newest first *) }.
Definition upd {A} (f : Z -> A) (i : Z) (x : A) : Z -> A := fun j => if j =? i then x else f j.
Definition dcall (th : Z) (s : cstate) (m : Z) (on_init : option cstate) : option cstate :=
  match get_index m with
  | Some i => match table_at i with
              | Some (EFunc t) => Some {| c_shared := c_shared s; c_pc := upd (c_pc s) th TIdle; c_calls := (th, t) :: c_calls s |}
              | Some EInit => on_init
              | _ => None
              end
  | None => None
  end.
Definition with_pc (s : cstate) (th : Z) (sh : dstate) (p : dpc) : cstate :=
  {| c_shared := sh; c_pc := upd (c_pc s) th p; c_calls := c_calls s |}.
(** [None]: the action is undefined behaviour or not possible here; [cenabled] tells them apart *)
Definition cstep (det : Z) (th : Z) (act : dact) (s : cstate) : option cstate :=
  let sh := c_shared s in
  match c_pc s th, act with
  | TIdle, ADisable d => Some (with_pc s th {| d_mask := d_mask sh; d_supported_mask := Z.lnot d; d_mock := d_mock sh |} TDeInit)
  | TIdle, AMock t => Some (with_pc s th {| d_mask := d_mask sh; d_supported_mask := d_supported_mask sh; d_mock := t |} TDeInit)
  | TIdle, AQuery => Some (with_pc s th sh (TSup true))
  | TIdle, ADispatch => dcall th s (d_mask sh) (Some (with_pc s th sh (TSup false)))
  | TDeInit, AStep => Some (with_pc s th (set_mask sh 1) TIdle)
  | TSup q, AStep => Some (if d_mock sh =? 0 then with_pc s th (set_mask sh (update_mask det)) (TMask q det)
                           else with_pc s th sh (TMask q (d_mock sh)))
  | TMask q t, AStep => let t := Z.land t (d_supported_mask sh) in
                        let t := if t =? 0 then Z.shiftl 1 lib_static else t in
                        Some (with_pc s th sh (if q then TIdle else TUpdate t))
  | TUpdate t, AStep => Some (with_pc s th (set_mask sh (update_mask t)) TIndex)
  | TIndex, AStep => (* the mask may have been de-initialized by another thread meanwhile: recursion into ChooseAndCall *)
                     dcall th s (d_mask sh) (Some (with_pc s th sh (TSup false)))
  | _, _ => None
  end.
(** whether thread [th] may perform [act] at its current point *)
Definition cenabled (th : Z) (act : dact) (s : cstate) : bool :=
  match c_pc s th, act with
  | TIdle, (ADisable _ | AMock _ | AQuery | ADispatch) => true
  | TIdle, AStep => false
  | _, AStep => true
  | _, _ => false
  end.
(** reachable states when the threads only start the calls in [allowed] *)
Inductive creach (det : Z) (allowed : dact -> Prop) : cstate -> Prop :=
| cr_init : creach det allowed {| c_shared := d_init; c_pc := fun _ => TIdle; c_calls := [] |}
| cr_step s th act s' : creach det allowed s -> allowed act -> cstep det th act s = Some s' -> creach det allowed s'.
(** an explicit interleaving *)
Fixpoint crun (det : Z) (sched : list (Z * dact)) (s : cstate) : option cstate :=
  match sched with
  | [] => Some s
  | (th, act) :: r => match cstep det th act s with Some s' => crun det r s' | None => None end
  end.
End A.
Definition c_init : cstate := {| c_shared := d_init; c_pc := fun _ => TIdle; c_calls := [] |}.

(** targets.h 74-83 SupportedAndGeneratedTargets on [int64_t]; the first
    argument bounds the number of iterations *)
Fixpoint generated_targets (fuel : nat) (t : Z) : option (list Z) :=
  match fuel with
  | O => None
  | S f => if t =? 0 then Some []
           else match generated_targets f (Z.land t (swrap 64 (t - 1))) with
                | Some l => Some (Z.land t (Z.lnot (swrap 64 (t - 1))) :: l)
                | None => None
                end
  end.

(** ** x86 detection, targets.cc 112-439 *)

(** targets.cc 132-175 FeatureIndex *)
Inductive feature :=
| fSSE | fSSE2 | fSSE3 | fSSSE3 | fSSE41 | fSSE42 | fCLMUL | fAES
| fAVX | fAVX2 | fF16C | fFMA | fLZCNT | fBMI | fBMI2
| fAVX512F | fAVX512VL | fAVX512CD | fAVX512DQ | fAVX512BW | fAVX512FP16 | fAVX512BF16
| fVNNI | fVPCLMULQDQ | fVBMI | fVBMI2 | fVAES | fPOPCNTDQ | fBITALG | fGFNI | fAVX10 | fAPX.

(** CPUID as a function of leaf, subleaf and register (0..3 = eax, ebx, ecx, edx) *)
Section X.
Context (cpuid : Z -> Z -> Z -> Z).
(** x86_cpuid.h 59-61 IsBitSet *)
Definition bit_set (reg i : Z) : bool := negb (Z.land reg (Z.shiftl 1 i) =? 0).

(** targets.cc 182-239 FlagsFromCPUID, as the membership test of the returned
    bit set (each feature is assigned exactly once in the code) *)
Definition flag (f : feature) : bool :=
  let std r i := bit_set (cpuid 1 0 r) i in
  let ext7 r i := (7 <=? cpuid 0 0 0) && bit_set (cpuid 7 0 r) i in
  let ext71 r i := (7 <=? cpuid 0 0 0) && bit_set (cpuid 7 1 r) i in
  match f with
  | fSSE => std 3 25 | fSSE2 => std 3 26 | fSSE3 => std 2 0 | fCLMUL => std 2 1 | fSSSE3 => std 2 9 | fFMA => std 2 12
  | fSSE41 => std 2 19 | fSSE42 => std 2 20 | fAES => std 2 25 | fAVX => std 2 28 | fF16C => std 2 29
  | fLZCNT => bit_set (cpuid (2 ^ 31 + 1) 0 2) 5
  | fBMI => ext7 1 3 | fAVX2 => ext7 1 5 | fBMI2 => ext7 1 8
  | fAVX512F => ext7 1 16 | fAVX512DQ => ext7 1 17 | fAVX512CD => ext7 1 28 | fAVX512BW => ext7 1 30 | fAVX512VL => ext7 1 31
  | fVBMI => ext7 2 1 | fVBMI2 => ext7 2 6 | fGFNI => ext7 2 8 | fVAES => ext7 2 9 | fVPCLMULQDQ => ext7 2 10
  | fVNNI => ext7 2 11 | fBITALG => ext7 2 12 | fPOPCNTDQ => ext7 2 14 | fAVX512FP16 => ext7 3 23
  | fAVX512BF16 => ext71 0 5 | fAVX10 => ext71 3 19 | fAPX => ext71 3 21
  end.

(** targets.cc 241-299 the groups (default configuration: HWY_DISABLE_BMI2_FMA and HWY_DISABLE_F16C not defined) *)
Definition gSSE2 := [fSSE; fSSE2].
Definition gSSSE3 := [fSSE3; fSSSE3] ++ gSSE2.
Definition gSSE4 := [fSSE41; fSSE42; fCLMUL; fAES] ++ gSSSE3.
Definition gBMI2_FMA := [fBMI; fBMI2; fFMA].
Definition gF16C := [fF16C].
Definition gAVX2 := [fAVX; fAVX2; fLZCNT] ++ gBMI2_FMA ++ gF16C ++ gSSE4.
Definition gAVX3 := [fAVX512F; fAVX512VL; fAVX512DQ; fAVX512BW; fAVX512CD] ++ gAVX2.
Definition gAVX3_DL := [fVNNI; fVPCLMULQDQ; fVBMI; fVBMI2; fVAES; fPOPCNTDQ; fBITALG; fGFNI] ++ gAVX3.
Definition gAVX3_ZEN4 := [fAVX512BF16] ++ gAVX3_DL.
Definition gAVX3_SPR := [fAVX512FP16] ++ gAVX3_ZEN4.
Definition gAVX10 := [fAVX10; fAPX; fVPCLMULQDQ; fVAES; fGFNI] ++ gAVX2.
(** (flags & kGroup) == kGroup *)
Definition has (g : list feature) : bool := forallb flag g.
Definition tbit (t : Z) : Z := Z.shiftl 1 t.
Definition or_if (c : bool) (t : Z) (bits : Z) : Z := if c then Z.lor bits t else bits.

(** targets.cc 301-439 DetectTargets on an OS other than macOS, in four steps.
    [x64]: HWY_ARCH_X86_64; [xcr0] what ReadXCR0 returns; [amd]: IsAMD().
    Step 1, 302-331: the groups *)
Definition x86_groups (x64 : bool) : Z :=
  let bits := if x64 then tbit SSE2 else 0 in
  let bits := or_if (has gAVX3_SPR) (tbit AVX3_SPR) bits in
  let bits := or_if (has gAVX3_DL) (tbit AVX3_DL) bits in
  let bits := or_if (has gAVX3) (tbit AVX3) bits in
  let bits := or_if (has gAVX2) (tbit AVX2) bits in
  let bits := or_if (has gSSE4) (tbit SSE4) bits in
  let bits := or_if (has gSSSE3) (tbit SSSE3) bits in
  if x64 then bits else or_if (has gSSE2) (tbit SSE2) bits.
(** step 2, 333-359: AVX10 *)
Definition x86_avx10 (bits : Z) : Z :=
  if has gAVX10 then
    let ver := Z.land (cpuid 36 0 1) 255 in
    let has512 := (1 <=? ver) && bit_set (cpuid 36 0 1) 18 in
    let bits := or_if has512 (Z.lor (Z.lor (tbit AVX3_SPR) (tbit AVX3_DL)) (tbit AVX3)) bits in
    if 2 <=? ver then or_if has512 (tbit AVX10_2_512) (Z.lor bits (tbit AVX10_2)) else bits
  else bits.
(** step 3, 381-429: XSAVE *)
Definition x86_xsave (xcr0 bits : Z) : Z :=
  let has_xsave := bit_set (cpuid 1 0 2) 26 in
  let has_osxsave := bit_set (cpuid 1 0 2) 27 in
  let min_avx2 := Z.lor (tbit AVX2) (tbit AVX2 - 1) in
  if has_xsave && has_osxsave then
    let min_avx3 := Z.lor (Z.lor (tbit AVX3) (tbit AVX3_DL)) (tbit AVX3_SPR) in
    let bits := if negb (bit_set xcr0 1) || negb (bit_set xcr0 2) then Z.land bits (Z.lnot min_avx2) else bits in
    if negb (bit_set xcr0 5 && bit_set xcr0 6 && bit_set xcr0 7) then Z.land bits (Z.lnot min_avx3) else bits
  else Z.land bits (Z.lnot min_avx2).
(** step 4, 431-436 *)
Definition x86_zen4 (amd : bool) (bits : Z) : Z :=
  or_if (negb (Z.land bits (tbit AVX3_DL) =? 0) && has gAVX3_ZEN4 && amd) (tbit AVX3_ZEN4) bits.
Definition x86_detect (x64 amd : bool) (xcr0 : Z) : Z := x86_zen4 amd (x86_xsave xcr0 (x86_avx10 (x86_groups x64))).
End X.
