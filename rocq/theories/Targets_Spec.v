(** Specification for dynamic dispatch: which target a dispatched call must
    reach. Target sets are masks: bit t set = target t in the set. *)
From Coq Require Import ZArith List Bool.
From Verif Require Import Targets_Model.
Import ListNotations.
Local Open Scope Z_scope.

Definition member (t set : Z) : Prop := Z.testbit set t = true.
(** the dynamic targets of the architecture *)
Definition dynamic (a : arch) (t : Z) : Prop := In (Some t) (a_list a).
(** a translation unit: HWY_TARGETS contains the static target, and only
    targets of this architecture or the two fallbacks (detect_targets.h 866-928) *)
Definition unit_ok (a : arch) (targets static : Z) : Prop :=
  member static targets /\ forall t, 0 <= t -> member t targets -> dynamic a t \/ t = EMU128 \/ t = SCALAR.
(** lower bit value = better target (detect_targets.h 49-50) *)
Definition best (a : arch) (targets avail t : Z) : Prop :=
  dynamic a t /\ member t targets /\ member t avail /\
  forall u, dynamic a u -> member u targets -> member u avail -> t <= u.
Definition last_resort (targets static t : Z) : Prop :=
  (member EMU128 targets /\ t = EMU128) \/
  (~ member EMU128 targets /\ member SCALAR targets /\ t = SCALAR) \/
  (~ member EMU128 targets /\ ~ member SCALAR targets /\ t = static).
Definition selects (a : arch) (targets static avail t : Z) : Prop :=
  best a targets avail t \/
  ((forall u, dynamic a u -> member u targets -> ~ member u avail) /\ last_resort targets static t).

(** the documented value of SupportedTargets(): the mock if any, else the
    detected targets, minus the disabled ones; the static target if that is empty *)
Definition available (lib_static det disabled mock : Z) : Z :=
  let s := Z.land (if mock =? 0 then det else mock) (Z.lnot disabled) in
  if s =? 0 then Z.shiftl 1 lib_static else s.

Fixpoint spec_results (a : arch) (targets static lib_static det disabled mock : Z) (ops : list dop) (res : list Z) : Prop :=
  match ops with
  | [] => res = []
  | ODisable d :: r => spec_results a targets static lib_static det d mock r res
  | OMock t :: r => spec_results a targets static lib_static det disabled t r res
  | OQuery :: r => match res with q :: res' => q = available lib_static det disabled mock /\
                     spec_results a targets static lib_static det disabled mock r res' | [] => False end
  | ODispatch :: r => match res with t :: res' => selects a targets static (available lib_static det disabled mock) t /\
                        spec_results a targets static lib_static det disabled mock r res' | [] => False end
  end.

(** arguments the API can be given *)
Definition op_args (o : dop) : Prop := match o with OMock t => 0 <= t < 2 ^ 63 | ODisable d => - 2 ^ 63 <= d < 2 ^ 63 | _ => True end.
(** every direct SupportedTargets() call happens while nothing detected is
    disabled or a mock is active *)
Fixpoint queries_harmless (det disabled mock : Z) (ops : list dop) : Prop :=
  match ops with
  | [] => True
  | ODisable d :: r => queries_harmless det d mock r
  | OMock t :: r => queries_harmless det disabled t r
  | OQuery :: r => (mock <> 0 \/ Z.land det (Z.lnot disabled) = det) /\ queries_harmless det disabled mock r
  | ODispatch :: r => queries_harmless det disabled mock r
  end.
(** what DetectTargets returns always contains both fallbacks (targets.cc 697-699) *)
Definition det_ok (det : Z) : Prop := 0 <= det < 2 ^ 63 /\ member EMU128 det /\ member SCALAR det.

(** ** x86: what the processor and the OS must provide (Intel SDM vol. 2 CPUID,
    vol. 1 ch. 13 XCR0; detect_targets.h 61-80) *)
(** CPUID leaf, subleaf, register (eax=0..edx=3) and bit of each feature *)
Definition cpuid_bit (f : feature) : Z * Z * Z * Z :=
  match f with
  | fSSE => (1, 0, 3, 25) | fSSE2 => (1, 0, 3, 26) | fSSE3 => (1, 0, 2, 0) | fCLMUL => (1, 0, 2, 1)
  | fSSSE3 => (1, 0, 2, 9) | fFMA => (1, 0, 2, 12) | fSSE41 => (1, 0, 2, 19) | fSSE42 => (1, 0, 2, 20)
  | fAES => (1, 0, 2, 25) | fAVX => (1, 0, 2, 28) | fF16C => (1, 0, 2, 29)
  | fLZCNT => (2147483649, 0, 2, 5)
  | fBMI => (7, 0, 1, 3) | fAVX2 => (7, 0, 1, 5) | fBMI2 => (7, 0, 1, 8)
  | fAVX512F => (7, 0, 1, 16) | fAVX512DQ => (7, 0, 1, 17) | fAVX512CD => (7, 0, 1, 28)
  | fAVX512BW => (7, 0, 1, 30) | fAVX512VL => (7, 0, 1, 31)
  | fVBMI => (7, 0, 2, 1) | fVBMI2 => (7, 0, 2, 6) | fGFNI => (7, 0, 2, 8) | fVAES => (7, 0, 2, 9)
  | fVPCLMULQDQ => (7, 0, 2, 10) | fVNNI => (7, 0, 2, 11) | fBITALG => (7, 0, 2, 12) | fPOPCNTDQ => (7, 0, 2, 14)
  | fAVX512FP16 => (7, 0, 3, 23) | fAVX512BF16 => (7, 1, 0, 5) | fAVX10 => (7, 1, 3, 19) | fAPX => (7, 1, 3, 21)
  end.
Section X.
Context (cpuid : Z -> Z -> Z -> Z) (xcr0 : Z).
Definition cpu_has (f : feature) : Prop :=
  let '(leaf, sub, reg, bit) := cpuid_bit f in
  member bit (cpuid leaf sub reg) /\ (leaf = 7 -> 7 <= cpuid 0 0 0).
Definition cpu_all (l : list feature) : Prop := forall f, In f l -> cpu_has f.
Definition need_SSE2 := [fSSE; fSSE2].
Definition need_SSSE3 := [fSSE; fSSE2; fSSE3; fSSSE3].
Definition need_SSE4 := [fSSE; fSSE2; fSSE3; fSSSE3; fSSE41; fSSE42; fCLMUL; fAES].
Definition need_AVX2 := need_SSE4 ++ [fAVX; fAVX2; fLZCNT; fBMI; fBMI2; fFMA; fF16C].
Definition need_AVX3 := need_AVX2 ++ [fAVX512F; fAVX512VL; fAVX512DQ; fAVX512BW; fAVX512CD].
Definition need_AVX3_DL := need_AVX3 ++ [fVNNI; fVPCLMULQDQ; fVBMI; fVBMI2; fVAES; fPOPCNTDQ; fBITALG; fGFNI].
Definition need_AVX3_ZEN4 := need_AVX3_DL ++ [fAVX512BF16].
Definition need_AVX3_SPR := need_AVX3_ZEN4 ++ [fAVX512FP16].
Definition need_AVX10 := need_AVX2 ++ [fAVX10; fAPX; fVPCLMULQDQ; fVAES; fGFNI].
(** AVX10 version and 512-bit support: CPUID leaf 24h, ebx *)
Definition avx10_version_ge (v : Z) : Prop := cpu_all need_AVX10 /\ v <= cpuid 36 0 1 mod 256.
Definition avx10_512 : Prop := avx10_version_ge 1 /\ member 18 (cpuid 36 0 1).
(** XSAVE and OSXSAVE, and the state components enabled in XCR0 *)
Definition os_saves (components : list Z) : Prop :=
  member 26 (cpuid 1 0 2) /\ member 27 (cpuid 1 0 2) /\ forall c, In c components -> member c xcr0.
Definition os_ymm : Prop := os_saves [1; 2].
Definition os_zmm : Prop := os_saves [1; 2; 5; 6; 7].
End X.
