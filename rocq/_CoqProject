-Q theories Verif
theories/Word.v
theories/Word_Proofs.v
theories/Arith_Spec.v
theories/Arith_Model.v
theories/Arith_Proofs.v
theories/Properties_Arith.v
theories/BitSet_Model.v
theories/BitSet_Spec.v
theories/BitSet_Proofs.v
theories/Properties_BitSet.v
theories/Pool_Model.v
theories/Pool_Spec.v
theories/Pool_Proofs.v
theories/Pool_Steal.v
theories/Properties_Pool.v
theories/Barrier_Model.v
theories/Barrier_Spec.v
theories/Barrier_Proofs.v
theories/Barrier_Life.v
theories/Properties_Barrier.v
theories/Vec_Model.v
theories/Algo_Model.v
theories/Vec_Proofs.v
theories/Algo_Proofs.v
theories/Properties_Algo.v
theories/Alloc_Model.v
theories/Alloc_Spec.v
theories/Alloc_Proofs.v
theories/Properties_Alloc.v
theories/Tune_Model.v
theories/Tune_Spec.v
theories/Tune_Proofs.v
theories/Properties_Tune.v
theories/Sort_Spec.v
theories/Heap_Model.v
theories/Heap_Proofs.v
theories/Properties_Heap.v
theories/Partition_Model.v
theories/Partition_Proofs.v
theories/Properties_Partition.v
theories/TwoValue_Model.v
theories/TwoValue_Proofs.v
theories/Properties_TwoValue.v
theories/Network_Model.v
theories/Network_Check.v
theories/Network_Proofs.v
theories/Network_Sort.v
theories/BaseCase_Model.v
theories/Network_Lift.v
theories/BaseCase_Proofs.v
theories/Properties_Network.v
theories/Recurse_Model.v
theories/Recurse_Spec.v
theories/Recurse_Proofs.v
theories/Traits_Model.v
theories/Traits_Proofs.v
theories/VQSort_Model.v
theories/VQSort_Spec.v
theories/VQSort_Proofs.v
theories/VQSort_NaN.v
theories/Properties_Sort.v
theories/Float_Spec.v
theories/Float_Model.v
theories/Float_Proofs.v
theories/Float_Conv.v
theories/Float_F64.v
theories/Float_More.v
theories/Float_Rank.v
theories/Properties_Float.v
theories/BitPack_Model.v
theories/BitPack_Code.v
theories/BitPack_Spec.v
theories/BitPack_Sym.v
theories/BitPack_Proofs.v
theories/BitPack_Check.v
theories/Properties_BitPack.v
theories/GF2_Poly.v
theories/Fermat.v
theories/Primes.v
theories/Random_Model.v
theories/Random_Spec.v
theories/Random_Linear.v
theories/Random_Cert.v
theories/Random_Proofs.v
theories/Random_Vec.v
theories/Random_Uniform.v
theories/Properties_Random.v
theories/Targets_Model.v
theories/Targets_Spec.v
theories/Targets_Proofs.v
theories/Properties_Targets.v
theories/Stats_Model.v
theories/Stats_Spec.v
theories/Stats_Proofs.v
theories/Properties_Stats.v
theories/Robust_Model.v
theories/Robust_Spec.v
theories/Robust_Proofs.v
theories/Properties_Robust.v
theories/Cost_Model.v
theories/Cost_Proofs.v
theories/Properties_Cost.v
theories/Dot_Model.v
theories/Dot_Proofs.v
theories/Dot_Main.v
theories/MatVec_Proofs.v
theories/Properties_Dot.v
theories/Unroll_Model.v
theories/Unroll_Proofs.v
theories/Properties_Unroll.v
theories/Ops_Model.v
theories/Crypto_Model.v
theories/AES_Spec.v
theories/CLMul_Proofs.v
theories/Crypto_Proofs.v
theories/Properties_Crypto.v
theories/IntOps_Model.v
theories/IntOps_Proofs.v
theories/IntOps_Mul.v
theories/Properties_IntOps.v
theories/BitCount_Model.v
theories/BitCount_Proofs.v
theories/Properties_BitCount.v
theories/IntDiv_Model.v
theories/IntDiv_Real.v
theories/IntDiv_Near.v
theories/IntDiv_Proofs.v
theories/Properties_IntDiv.v
theories/Interleave_Model.v
theories/Interleave_Proofs.v
theories/Properties_Interleave.v
theories/Topo_Spec.v
theories/Topo_Model.v
theories/Topo_Proofs.v
theories/Topo_Detect.v
theories/Topo_Top.v
theories/TopoCache_Spec.v
theories/TopoCache_Model.v
theories/TopoCache_Proofs.v
theories/Properties_Topo.v
theories/LoadN_Model.v
theories/LoadN_Spec.v
theories/LoadN_Proofs.v
theories/LoadN_AVX2.v
theories/Properties_LoadN.v
theories/Profiler_Model.v
theories/Profiler_Spec.v
theories/Profiler_Proofs.v
theories/Profiler_Merge.v
theories/Profiler_Top.v
theories/Properties_Profiler.v
theories/Rounding_Model.v
theories/Rounding_Spec.v
theories/Rounding_Core.v
theories/Rounding_Proofs.v
theories/Rounding_Ops.v
theories/Rounding_Ops2.v
theories/Rounding_Bits.v
theories/Rounding_Int.v
theories/Properties_Rounding.v
theories/Pow2_Spec.v
theories/Pow2_Model.v
theories/Pow2_Round.v
theories/Pow2_Lanes.v
theories/Pow2_Proofs.v
theories/Pow2_Exp.v
theories/Properties_Pow2.v
theories/Compress_Tables.v
theories/Compress_Spec.v
theories/Compress_Model.v
theories/Compress_Bits.v
theories/Compress_Proofs.v
theories/Compress_Shuffle.v
theories/Properties_Compress.v
theories/MaskFirst_Spec.v
theories/MaskFirst_Model.v
theories/MaskFirst_Proofs.v
theories/Properties_MaskFirst.v
theories/VecF16_Model.v
theories/VecF16_Proofs.v
theories/VecF16_More.v
theories/Properties_VecF16.v
theories/Shift_Spec.v
theories/Shift_Model.v
theories/Shift_Proofs.v
theories/Shift_Var.v
theories/BitPerm_Model.v
theories/BitPerm_Proofs.v
theories/BitPerm_Shuffle.v
theories/Properties_Shift.v
theories/Cmp_Spec.v
theories/Cmp_Model.v
theories/Cmp_Proofs.v
theories/Properties_Cmp.v
theories/X86Conv_Model.v
theories/X86Conv_Int.v
theories/X86Conv_Odd.v
theories/X86Conv_Trunc.v
theories/X86Conv_Sat.v
theories/X86Conv_Wide.v
theories/Properties_X86Conv.v
theories/X86Int_Spec.v
theories/X86Int_Model.v
theories/X86Int_Proofs.v
theories/X86Int_Lane.v
theories/X86Int_Sel.v
theories/X86Int_Main.v
theories/X86Int_Two.v
theories/X86Int_256.v
theories/Properties_X86Int.v
theories/X86Mul_Model.v
theories/X86Mul_Move.v
theories/X86Mul_Proofs.v
theories/X86Mul_More.v
theories/X86Mul_High.v
theories/Properties_X86Mul.v
theories/X86Slide_Model.v
theories/X86Slide_Proofs.v
theories/X86Slide_More.v
theories/X86Slide_Perm.v
theories/Properties_X86Slide.v
theories/X86Table_Model.v
theories/X86Table_Proofs.v
theories/X86Table_More.v
theories/X86Table_Two.v
theories/Properties_X86Table.v
theories/X86Halves_Model.v
theories/Properties_X86Halves.v
