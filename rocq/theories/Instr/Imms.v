(** Generated by tools/gen_instr.py from crates/wasm-encoder/src/core/code.rs: do not edit. *)
From Verif.Base Require Import Prelude.
From Verif.Reader Require Import Model.
From Verif.Leb Require Import Model.
From Verif.Codec Require Import Kit.
From Verif.Types Require Import RefModel CodecModel EntityModel.
From Verif.Instr Require Import ImmModel ImmSpec Ops.

(** The immediates of each instruction, by the types of its fields; the exceptions are the table of [call_indirect], the memory
    of [memory.size] and [memory.grow], and the legacy exception instructions. *)
Definition imms (i : instr) : list imm :=
  match i with
  | In_Unreachable => []
  | In_Nop => []
  | In_Block a0 => [IBlock a0]
  | In_Loop a0 => [IBlock a0]
  | In_If a0 => [IBlock a0]
  | In_Else => []
  | In_End => []
  | In_Br a0 => [IU32 a0]
  | In_BrIf a0 => [IU32 a0]
  | In_BrTable a0 a1 => [IBr a0; IU32 a1]
  | In_BrOnNull a0 => [IU32 a0]
  | In_BrOnNonNull a0 => [IU32 a0]
  | In_Return => []
  | In_Call a0 => [IU32 a0]
  | In_CallRef a0 => [IU32 a0]
  | In_CallIndirect type_index table_index => [IU32 type_index; ICallTable table_index]
  | In_ReturnCallRef a0 => [IU32 a0]
  | In_ReturnCall a0 => [IU32 a0]
  | In_ReturnCallIndirect type_index table_index => [IU32 type_index; IU32 table_index]
  | In_TryTable a0 a1 => [IBlock a0; ICatches a1]
  | In_Throw a0 => [IU32 a0]
  | In_ThrowRef => []
  | In_Try a0 => [ILegacy; IBlock a0]
  | In_Delegate a0 => [IU32 a0]
  | In_Catch a0 => [ILegacy; IU32 a0]
  | In_CatchAll => [ILegacy]
  | In_Rethrow a0 => [IU32 a0]
  | In_Drop => []
  | In_Select => []
  | In_LocalGet a0 => [IU32 a0]
  | In_LocalSet a0 => [IU32 a0]
  | In_LocalTee a0 => [IU32 a0]
  | In_GlobalGet a0 => [IU32 a0]
  | In_GlobalSet a0 => [IU32 a0]
  | In_I32Load a0 => [IMem a0]
  | In_I64Load a0 => [IMem a0]
  | In_F32Load a0 => [IMem a0]
  | In_F64Load a0 => [IMem a0]
  | In_I32Load8S a0 => [IMem a0]
  | In_I32Load8U a0 => [IMem a0]
  | In_I32Load16S a0 => [IMem a0]
  | In_I32Load16U a0 => [IMem a0]
  | In_I64Load8S a0 => [IMem a0]
  | In_I64Load8U a0 => [IMem a0]
  | In_I64Load16S a0 => [IMem a0]
  | In_I64Load16U a0 => [IMem a0]
  | In_I64Load32S a0 => [IMem a0]
  | In_I64Load32U a0 => [IMem a0]
  | In_I32Store a0 => [IMem a0]
  | In_I64Store a0 => [IMem a0]
  | In_F32Store a0 => [IMem a0]
  | In_F64Store a0 => [IMem a0]
  | In_I32Store8 a0 => [IMem a0]
  | In_I32Store16 a0 => [IMem a0]
  | In_I64Store8 a0 => [IMem a0]
  | In_I64Store16 a0 => [IMem a0]
  | In_I64Store32 a0 => [IMem a0]
  | In_MemorySize a0 => [IMemIdx a0]
  | In_MemoryGrow a0 => [IMemIdx a0]
  | In_MemoryInit mem data_index => [IU32 mem; IU32 data_index]
  | In_DataDrop a0 => [IU32 a0]
  | In_MemoryCopy src_mem dst_mem => [IU32 src_mem; IU32 dst_mem]
  | In_MemoryFill a0 => [IU32 a0]
  | In_MemoryDiscard a0 => [IU32 a0]
  | In_I32Const a0 => [II32 a0]
  | In_I64Const a0 => [II64 a0]
  | In_F32Const a0 => [IF32 a0]
  | In_F64Const a0 => [IF64 a0]
  | In_I32Eqz => []
  | In_I32Eq => []
  | In_I32Ne => []
  | In_I32LtS => []
  | In_I32LtU => []
  | In_I32GtS => []
  | In_I32GtU => []
  | In_I32LeS => []
  | In_I32LeU => []
  | In_I32GeS => []
  | In_I32GeU => []
  | In_I64Eqz => []
  | In_I64Eq => []
  | In_I64Ne => []
  | In_I64LtS => []
  | In_I64LtU => []
  | In_I64GtS => []
  | In_I64GtU => []
  | In_I64LeS => []
  | In_I64LeU => []
  | In_I64GeS => []
  | In_I64GeU => []
  | In_F32Eq => []
  | In_F32Ne => []
  | In_F32Lt => []
  | In_F32Gt => []
  | In_F32Le => []
  | In_F32Ge => []
  | In_F64Eq => []
  | In_F64Ne => []
  | In_F64Lt => []
  | In_F64Gt => []
  | In_F64Le => []
  | In_F64Ge => []
  | In_I32Clz => []
  | In_I32Ctz => []
  | In_I32Popcnt => []
  | In_I32Add => []
  | In_I32Sub => []
  | In_I32Mul => []
  | In_I32DivS => []
  | In_I32DivU => []
  | In_I32RemS => []
  | In_I32RemU => []
  | In_I32And => []
  | In_I32Or => []
  | In_I32Xor => []
  | In_I32Shl => []
  | In_I32ShrS => []
  | In_I32ShrU => []
  | In_I32Rotl => []
  | In_I32Rotr => []
  | In_I64Clz => []
  | In_I64Ctz => []
  | In_I64Popcnt => []
  | In_I64Add => []
  | In_I64Sub => []
  | In_I64Mul => []
  | In_I64DivS => []
  | In_I64DivU => []
  | In_I64RemS => []
  | In_I64RemU => []
  | In_I64And => []
  | In_I64Or => []
  | In_I64Xor => []
  | In_I64Shl => []
  | In_I64ShrS => []
  | In_I64ShrU => []
  | In_I64Rotl => []
  | In_I64Rotr => []
  | In_F32Abs => []
  | In_F32Neg => []
  | In_F32Ceil => []
  | In_F32Floor => []
  | In_F32Trunc => []
  | In_F32Nearest => []
  | In_F32Sqrt => []
  | In_F32Add => []
  | In_F32Sub => []
  | In_F32Mul => []
  | In_F32Div => []
  | In_F32Min => []
  | In_F32Max => []
  | In_F32Copysign => []
  | In_F64Abs => []
  | In_F64Neg => []
  | In_F64Ceil => []
  | In_F64Floor => []
  | In_F64Trunc => []
  | In_F64Nearest => []
  | In_F64Sqrt => []
  | In_F64Add => []
  | In_F64Sub => []
  | In_F64Mul => []
  | In_F64Div => []
  | In_F64Min => []
  | In_F64Max => []
  | In_F64Copysign => []
  | In_I32WrapI64 => []
  | In_I32TruncF32S => []
  | In_I32TruncF32U => []
  | In_I32TruncF64S => []
  | In_I32TruncF64U => []
  | In_I64ExtendI32S => []
  | In_I64ExtendI32U => []
  | In_I64TruncF32S => []
  | In_I64TruncF32U => []
  | In_I64TruncF64S => []
  | In_I64TruncF64U => []
  | In_F32ConvertI32S => []
  | In_F32ConvertI32U => []
  | In_F32ConvertI64S => []
  | In_F32ConvertI64U => []
  | In_F32DemoteF64 => []
  | In_F64ConvertI32S => []
  | In_F64ConvertI32U => []
  | In_F64ConvertI64S => []
  | In_F64ConvertI64U => []
  | In_F64PromoteF32 => []
  | In_I32ReinterpretF32 => []
  | In_I64ReinterpretF64 => []
  | In_F32ReinterpretI32 => []
  | In_F64ReinterpretI64 => []
  | In_I32Extend8S => []
  | In_I32Extend16S => []
  | In_I64Extend8S => []
  | In_I64Extend16S => []
  | In_I64Extend32S => []
  | In_I32TruncSatF32S => []
  | In_I32TruncSatF32U => []
  | In_I32TruncSatF64S => []
  | In_I32TruncSatF64U => []
  | In_I64TruncSatF32S => []
  | In_I64TruncSatF32U => []
  | In_I64TruncSatF64S => []
  | In_I64TruncSatF64U => []
  | In_TypedSelect a0 => [IVal a0]
  | In_TypedSelectMulti a0 => [ISelect a0]
  | In_RefNull a0 => [IHeap a0]
  | In_RefIsNull => []
  | In_RefFunc a0 => [IU32 a0]
  | In_RefEq => []
  | In_RefAsNonNull => []
  | In_StructNew a0 => [IU32 a0]
  | In_StructNewDefault a0 => [IU32 a0]
  | In_StructGet struct_type_index field_index => [IU32 struct_type_index; IU32 field_index]
  | In_StructGetS struct_type_index field_index => [IU32 struct_type_index; IU32 field_index]
  | In_StructGetU struct_type_index field_index => [IU32 struct_type_index; IU32 field_index]
  | In_StructSet struct_type_index field_index => [IU32 struct_type_index; IU32 field_index]
  | In_StructNewDesc a0 => [IU32 a0]
  | In_StructNewDefaultDesc a0 => [IU32 a0]
  | In_ArrayNew a0 => [IU32 a0]
  | In_ArrayNewDefault a0 => [IU32 a0]
  | In_ArrayNewFixed array_type_index array_size => [IU32 array_type_index; IU32 array_size]
  | In_ArrayNewData array_type_index array_data_index => [IU32 array_type_index; IU32 array_data_index]
  | In_ArrayNewElem array_type_index array_elem_index => [IU32 array_type_index; IU32 array_elem_index]
  | In_ArrayGet a0 => [IU32 a0]
  | In_ArrayGetS a0 => [IU32 a0]
  | In_ArrayGetU a0 => [IU32 a0]
  | In_ArraySet a0 => [IU32 a0]
  | In_ArrayLen => []
  | In_ArrayFill a0 => [IU32 a0]
  | In_ArrayCopy array_type_index_dst array_type_index_src => [IU32 array_type_index_dst; IU32 array_type_index_src]
  | In_ArrayInitData array_type_index array_data_index => [IU32 array_type_index; IU32 array_data_index]
  | In_ArrayInitElem array_type_index array_elem_index => [IU32 array_type_index; IU32 array_elem_index]
  | In_RefTestNonNull a0 => [IHeap a0]
  | In_RefTestNullable a0 => [IHeap a0]
  | In_RefCastNonNull a0 => [IHeap a0]
  | In_RefCastNullable a0 => [IHeap a0]
  | In_BrOnCast relative_depth from_ref_type to_ref_type => [IU32 relative_depth; IRef from_ref_type; IRef to_ref_type]
  | In_BrOnCastFail relative_depth from_ref_type to_ref_type => [IU32 relative_depth; IRef from_ref_type; IRef to_ref_type]
  | In_AnyConvertExtern => []
  | In_ExternConvertAny => []
  | In_RefI31 => []
  | In_I31GetS => []
  | In_I31GetU => []
  | In_TableInit elem_index table => [IU32 elem_index; IU32 table]
  | In_ElemDrop a0 => [IU32 a0]
  | In_TableFill a0 => [IU32 a0]
  | In_TableSet a0 => [IU32 a0]
  | In_TableGet a0 => [IU32 a0]
  | In_TableGrow a0 => [IU32 a0]
  | In_TableSize a0 => [IU32 a0]
  | In_TableCopy src_table dst_table => [IU32 src_table; IU32 dst_table]
  | In_V128Load a0 => [IMem a0]
  | In_V128Load8x8S a0 => [IMem a0]
  | In_V128Load8x8U a0 => [IMem a0]
  | In_V128Load16x4S a0 => [IMem a0]
  | In_V128Load16x4U a0 => [IMem a0]
  | In_V128Load32x2S a0 => [IMem a0]
  | In_V128Load32x2U a0 => [IMem a0]
  | In_V128Load8Splat a0 => [IMem a0]
  | In_V128Load16Splat a0 => [IMem a0]
  | In_V128Load32Splat a0 => [IMem a0]
  | In_V128Load64Splat a0 => [IMem a0]
  | In_V128Load32Zero a0 => [IMem a0]
  | In_V128Load64Zero a0 => [IMem a0]
  | In_V128Store a0 => [IMem a0]
  | In_V128Load8Lane memarg lane => [IMem memarg; ILane lane]
  | In_V128Load16Lane memarg lane => [IMem memarg; ILane lane]
  | In_V128Load32Lane memarg lane => [IMem memarg; ILane lane]
  | In_V128Load64Lane memarg lane => [IMem memarg; ILane lane]
  | In_V128Store8Lane memarg lane => [IMem memarg; ILane lane]
  | In_V128Store16Lane memarg lane => [IMem memarg; ILane lane]
  | In_V128Store32Lane memarg lane => [IMem memarg; ILane lane]
  | In_V128Store64Lane memarg lane => [IMem memarg; ILane lane]
  | In_V128Const a0 => [IV128 a0]
  | In_I8x16Shuffle a0 => [ILanes a0]
  | In_I8x16ExtractLaneS a0 => [ILane a0]
  | In_I8x16ExtractLaneU a0 => [ILane a0]
  | In_I8x16ReplaceLane a0 => [ILane a0]
  | In_I16x8ExtractLaneS a0 => [ILane a0]
  | In_I16x8ExtractLaneU a0 => [ILane a0]
  | In_I16x8ReplaceLane a0 => [ILane a0]
  | In_I32x4ExtractLane a0 => [ILane a0]
  | In_I32x4ReplaceLane a0 => [ILane a0]
  | In_I64x2ExtractLane a0 => [ILane a0]
  | In_I64x2ReplaceLane a0 => [ILane a0]
  | In_F32x4ExtractLane a0 => [ILane a0]
  | In_F32x4ReplaceLane a0 => [ILane a0]
  | In_F64x2ExtractLane a0 => [ILane a0]
  | In_F64x2ReplaceLane a0 => [ILane a0]
  | In_I8x16Swizzle => []
  | In_I8x16Splat => []
  | In_I16x8Splat => []
  | In_I32x4Splat => []
  | In_I64x2Splat => []
  | In_F32x4Splat => []
  | In_F64x2Splat => []
  | In_I8x16Eq => []
  | In_I8x16Ne => []
  | In_I8x16LtS => []
  | In_I8x16LtU => []
  | In_I8x16GtS => []
  | In_I8x16GtU => []
  | In_I8x16LeS => []
  | In_I8x16LeU => []
  | In_I8x16GeS => []
  | In_I8x16GeU => []
  | In_I16x8Eq => []
  | In_I16x8Ne => []
  | In_I16x8LtS => []
  | In_I16x8LtU => []
  | In_I16x8GtS => []
  | In_I16x8GtU => []
  | In_I16x8LeS => []
  | In_I16x8LeU => []
  | In_I16x8GeS => []
  | In_I16x8GeU => []
  | In_I32x4Eq => []
  | In_I32x4Ne => []
  | In_I32x4LtS => []
  | In_I32x4LtU => []
  | In_I32x4GtS => []
  | In_I32x4GtU => []
  | In_I32x4LeS => []
  | In_I32x4LeU => []
  | In_I32x4GeS => []
  | In_I32x4GeU => []
  | In_I64x2Eq => []
  | In_I64x2Ne => []
  | In_I64x2LtS => []
  | In_I64x2GtS => []
  | In_I64x2LeS => []
  | In_I64x2GeS => []
  | In_F32x4Eq => []
  | In_F32x4Ne => []
  | In_F32x4Lt => []
  | In_F32x4Gt => []
  | In_F32x4Le => []
  | In_F32x4Ge => []
  | In_F64x2Eq => []
  | In_F64x2Ne => []
  | In_F64x2Lt => []
  | In_F64x2Gt => []
  | In_F64x2Le => []
  | In_F64x2Ge => []
  | In_V128Not => []
  | In_V128And => []
  | In_V128AndNot => []
  | In_V128Or => []
  | In_V128Xor => []
  | In_V128Bitselect => []
  | In_V128AnyTrue => []
  | In_I8x16Abs => []
  | In_I8x16Neg => []
  | In_I8x16Popcnt => []
  | In_I8x16AllTrue => []
  | In_I8x16Bitmask => []
  | In_I8x16NarrowI16x8S => []
  | In_I8x16NarrowI16x8U => []
  | In_I8x16Shl => []
  | In_I8x16ShrS => []
  | In_I8x16ShrU => []
  | In_I8x16Add => []
  | In_I8x16AddSatS => []
  | In_I8x16AddSatU => []
  | In_I8x16Sub => []
  | In_I8x16SubSatS => []
  | In_I8x16SubSatU => []
  | In_I8x16MinS => []
  | In_I8x16MinU => []
  | In_I8x16MaxS => []
  | In_I8x16MaxU => []
  | In_I8x16AvgrU => []
  | In_I16x8ExtAddPairwiseI8x16S => []
  | In_I16x8ExtAddPairwiseI8x16U => []
  | In_I16x8Abs => []
  | In_I16x8Neg => []
  | In_I16x8Q15MulrSatS => []
  | In_I16x8AllTrue => []
  | In_I16x8Bitmask => []
  | In_I16x8NarrowI32x4S => []
  | In_I16x8NarrowI32x4U => []
  | In_I16x8ExtendLowI8x16S => []
  | In_I16x8ExtendHighI8x16S => []
  | In_I16x8ExtendLowI8x16U => []
  | In_I16x8ExtendHighI8x16U => []
  | In_I16x8Shl => []
  | In_I16x8ShrS => []
  | In_I16x8ShrU => []
  | In_I16x8Add => []
  | In_I16x8AddSatS => []
  | In_I16x8AddSatU => []
  | In_I16x8Sub => []
  | In_I16x8SubSatS => []
  | In_I16x8SubSatU => []
  | In_I16x8Mul => []
  | In_I16x8MinS => []
  | In_I16x8MinU => []
  | In_I16x8MaxS => []
  | In_I16x8MaxU => []
  | In_I16x8AvgrU => []
  | In_I16x8ExtMulLowI8x16S => []
  | In_I16x8ExtMulHighI8x16S => []
  | In_I16x8ExtMulLowI8x16U => []
  | In_I16x8ExtMulHighI8x16U => []
  | In_I32x4ExtAddPairwiseI16x8S => []
  | In_I32x4ExtAddPairwiseI16x8U => []
  | In_I32x4Abs => []
  | In_I32x4Neg => []
  | In_I32x4AllTrue => []
  | In_I32x4Bitmask => []
  | In_I32x4ExtendLowI16x8S => []
  | In_I32x4ExtendHighI16x8S => []
  | In_I32x4ExtendLowI16x8U => []
  | In_I32x4ExtendHighI16x8U => []
  | In_I32x4Shl => []
  | In_I32x4ShrS => []
  | In_I32x4ShrU => []
  | In_I32x4Add => []
  | In_I32x4Sub => []
  | In_I32x4Mul => []
  | In_I32x4MinS => []
  | In_I32x4MinU => []
  | In_I32x4MaxS => []
  | In_I32x4MaxU => []
  | In_I32x4DotI16x8S => []
  | In_I32x4ExtMulLowI16x8S => []
  | In_I32x4ExtMulHighI16x8S => []
  | In_I32x4ExtMulLowI16x8U => []
  | In_I32x4ExtMulHighI16x8U => []
  | In_I64x2Abs => []
  | In_I64x2Neg => []
  | In_I64x2AllTrue => []
  | In_I64x2Bitmask => []
  | In_I64x2ExtendLowI32x4S => []
  | In_I64x2ExtendHighI32x4S => []
  | In_I64x2ExtendLowI32x4U => []
  | In_I64x2ExtendHighI32x4U => []
  | In_I64x2Shl => []
  | In_I64x2ShrS => []
  | In_I64x2ShrU => []
  | In_I64x2Add => []
  | In_I64x2Sub => []
  | In_I64x2Mul => []
  | In_I64x2ExtMulLowI32x4S => []
  | In_I64x2ExtMulHighI32x4S => []
  | In_I64x2ExtMulLowI32x4U => []
  | In_I64x2ExtMulHighI32x4U => []
  | In_F32x4Ceil => []
  | In_F32x4Floor => []
  | In_F32x4Trunc => []
  | In_F32x4Nearest => []
  | In_F32x4Abs => []
  | In_F32x4Neg => []
  | In_F32x4Sqrt => []
  | In_F32x4Add => []
  | In_F32x4Sub => []
  | In_F32x4Mul => []
  | In_F32x4Div => []
  | In_F32x4Min => []
  | In_F32x4Max => []
  | In_F32x4PMin => []
  | In_F32x4PMax => []
  | In_F64x2Ceil => []
  | In_F64x2Floor => []
  | In_F64x2Trunc => []
  | In_F64x2Nearest => []
  | In_F64x2Abs => []
  | In_F64x2Neg => []
  | In_F64x2Sqrt => []
  | In_F64x2Add => []
  | In_F64x2Sub => []
  | In_F64x2Mul => []
  | In_F64x2Div => []
  | In_F64x2Min => []
  | In_F64x2Max => []
  | In_F64x2PMin => []
  | In_F64x2PMax => []
  | In_I32x4TruncSatF32x4S => []
  | In_I32x4TruncSatF32x4U => []
  | In_F32x4ConvertI32x4S => []
  | In_F32x4ConvertI32x4U => []
  | In_I32x4TruncSatF64x2SZero => []
  | In_I32x4TruncSatF64x2UZero => []
  | In_F64x2ConvertLowI32x4S => []
  | In_F64x2ConvertLowI32x4U => []
  | In_F32x4DemoteF64x2Zero => []
  | In_F64x2PromoteLowF32x4 => []
  | In_I8x16RelaxedSwizzle => []
  | In_I32x4RelaxedTruncF32x4S => []
  | In_I32x4RelaxedTruncF32x4U => []
  | In_I32x4RelaxedTruncF64x2SZero => []
  | In_I32x4RelaxedTruncF64x2UZero => []
  | In_F32x4RelaxedMadd => []
  | In_F32x4RelaxedNmadd => []
  | In_F64x2RelaxedMadd => []
  | In_F64x2RelaxedNmadd => []
  | In_I8x16RelaxedLaneselect => []
  | In_I16x8RelaxedLaneselect => []
  | In_I32x4RelaxedLaneselect => []
  | In_I64x2RelaxedLaneselect => []
  | In_F32x4RelaxedMin => []
  | In_F32x4RelaxedMax => []
  | In_F64x2RelaxedMin => []
  | In_F64x2RelaxedMax => []
  | In_I16x8RelaxedQ15mulrS => []
  | In_I16x8RelaxedDotI8x16I7x16S => []
  | In_I32x4RelaxedDotI8x16I7x16AddS => []
  | In_MemoryAtomicNotify a0 => [IMem a0]
  | In_MemoryAtomicWait32 a0 => [IMem a0]
  | In_MemoryAtomicWait64 a0 => [IMem a0]
  | In_AtomicFence => []
  | In_I32AtomicLoad a0 => [IMem a0]
  | In_I64AtomicLoad a0 => [IMem a0]
  | In_I32AtomicLoad8U a0 => [IMem a0]
  | In_I32AtomicLoad16U a0 => [IMem a0]
  | In_I64AtomicLoad8U a0 => [IMem a0]
  | In_I64AtomicLoad16U a0 => [IMem a0]
  | In_I64AtomicLoad32U a0 => [IMem a0]
  | In_I32AtomicStore a0 => [IMem a0]
  | In_I64AtomicStore a0 => [IMem a0]
  | In_I32AtomicStore8 a0 => [IMem a0]
  | In_I32AtomicStore16 a0 => [IMem a0]
  | In_I64AtomicStore8 a0 => [IMem a0]
  | In_I64AtomicStore16 a0 => [IMem a0]
  | In_I64AtomicStore32 a0 => [IMem a0]
  | In_I32AtomicRmwAdd a0 => [IMem a0]
  | In_I64AtomicRmwAdd a0 => [IMem a0]
  | In_I32AtomicRmw8AddU a0 => [IMem a0]
  | In_I32AtomicRmw16AddU a0 => [IMem a0]
  | In_I64AtomicRmw8AddU a0 => [IMem a0]
  | In_I64AtomicRmw16AddU a0 => [IMem a0]
  | In_I64AtomicRmw32AddU a0 => [IMem a0]
  | In_I32AtomicRmwSub a0 => [IMem a0]
  | In_I64AtomicRmwSub a0 => [IMem a0]
  | In_I32AtomicRmw8SubU a0 => [IMem a0]
  | In_I32AtomicRmw16SubU a0 => [IMem a0]
  | In_I64AtomicRmw8SubU a0 => [IMem a0]
  | In_I64AtomicRmw16SubU a0 => [IMem a0]
  | In_I64AtomicRmw32SubU a0 => [IMem a0]
  | In_I32AtomicRmwAnd a0 => [IMem a0]
  | In_I64AtomicRmwAnd a0 => [IMem a0]
  | In_I32AtomicRmw8AndU a0 => [IMem a0]
  | In_I32AtomicRmw16AndU a0 => [IMem a0]
  | In_I64AtomicRmw8AndU a0 => [IMem a0]
  | In_I64AtomicRmw16AndU a0 => [IMem a0]
  | In_I64AtomicRmw32AndU a0 => [IMem a0]
  | In_I32AtomicRmwOr a0 => [IMem a0]
  | In_I64AtomicRmwOr a0 => [IMem a0]
  | In_I32AtomicRmw8OrU a0 => [IMem a0]
  | In_I32AtomicRmw16OrU a0 => [IMem a0]
  | In_I64AtomicRmw8OrU a0 => [IMem a0]
  | In_I64AtomicRmw16OrU a0 => [IMem a0]
  | In_I64AtomicRmw32OrU a0 => [IMem a0]
  | In_I32AtomicRmwXor a0 => [IMem a0]
  | In_I64AtomicRmwXor a0 => [IMem a0]
  | In_I32AtomicRmw8XorU a0 => [IMem a0]
  | In_I32AtomicRmw16XorU a0 => [IMem a0]
  | In_I64AtomicRmw8XorU a0 => [IMem a0]
  | In_I64AtomicRmw16XorU a0 => [IMem a0]
  | In_I64AtomicRmw32XorU a0 => [IMem a0]
  | In_I32AtomicRmwXchg a0 => [IMem a0]
  | In_I64AtomicRmwXchg a0 => [IMem a0]
  | In_I32AtomicRmw8XchgU a0 => [IMem a0]
  | In_I32AtomicRmw16XchgU a0 => [IMem a0]
  | In_I64AtomicRmw8XchgU a0 => [IMem a0]
  | In_I64AtomicRmw16XchgU a0 => [IMem a0]
  | In_I64AtomicRmw32XchgU a0 => [IMem a0]
  | In_I32AtomicRmwCmpxchg a0 => [IMem a0]
  | In_I64AtomicRmwCmpxchg a0 => [IMem a0]
  | In_I32AtomicRmw8CmpxchgU a0 => [IMem a0]
  | In_I32AtomicRmw16CmpxchgU a0 => [IMem a0]
  | In_I64AtomicRmw8CmpxchgU a0 => [IMem a0]
  | In_I64AtomicRmw16CmpxchgU a0 => [IMem a0]
  | In_I64AtomicRmw32CmpxchgU a0 => [IMem a0]
  | In_GlobalAtomicGet ordering global_index => [IOrd ordering; IU32 global_index]
  | In_GlobalAtomicSet ordering global_index => [IOrd ordering; IU32 global_index]
  | In_GlobalAtomicRmwAdd ordering global_index => [IOrd ordering; IU32 global_index]
  | In_GlobalAtomicRmwSub ordering global_index => [IOrd ordering; IU32 global_index]
  | In_GlobalAtomicRmwAnd ordering global_index => [IOrd ordering; IU32 global_index]
  | In_GlobalAtomicRmwOr ordering global_index => [IOrd ordering; IU32 global_index]
  | In_GlobalAtomicRmwXor ordering global_index => [IOrd ordering; IU32 global_index]
  | In_GlobalAtomicRmwXchg ordering global_index => [IOrd ordering; IU32 global_index]
  | In_GlobalAtomicRmwCmpxchg ordering global_index => [IOrd ordering; IU32 global_index]
  | In_TableAtomicGet ordering table_index => [IOrd ordering; IU32 table_index]
  | In_TableAtomicSet ordering table_index => [IOrd ordering; IU32 table_index]
  | In_TableAtomicRmwXchg ordering table_index => [IOrd ordering; IU32 table_index]
  | In_TableAtomicRmwCmpxchg ordering table_index => [IOrd ordering; IU32 table_index]
  | In_StructAtomicGet ordering struct_type_index field_index => [IOrd ordering; IU32 struct_type_index; IU32 field_index]
  | In_StructAtomicGetS ordering struct_type_index field_index => [IOrd ordering; IU32 struct_type_index; IU32 field_index]
  | In_StructAtomicGetU ordering struct_type_index field_index => [IOrd ordering; IU32 struct_type_index; IU32 field_index]
  | In_StructAtomicSet ordering struct_type_index field_index => [IOrd ordering; IU32 struct_type_index; IU32 field_index]
  | In_StructAtomicRmwAdd ordering struct_type_index field_index => [IOrd ordering; IU32 struct_type_index; IU32 field_index]
  | In_StructAtomicRmwSub ordering struct_type_index field_index => [IOrd ordering; IU32 struct_type_index; IU32 field_index]
  | In_StructAtomicRmwAnd ordering struct_type_index field_index => [IOrd ordering; IU32 struct_type_index; IU32 field_index]
  | In_StructAtomicRmwOr ordering struct_type_index field_index => [IOrd ordering; IU32 struct_type_index; IU32 field_index]
  | In_StructAtomicRmwXor ordering struct_type_index field_index => [IOrd ordering; IU32 struct_type_index; IU32 field_index]
  | In_StructAtomicRmwXchg ordering struct_type_index field_index => [IOrd ordering; IU32 struct_type_index; IU32 field_index]
  | In_StructAtomicRmwCmpxchg ordering struct_type_index field_index => [IOrd ordering; IU32 struct_type_index; IU32 field_index]
  | In_ArrayAtomicGet ordering array_type_index => [IOrd ordering; IU32 array_type_index]
  | In_ArrayAtomicGetS ordering array_type_index => [IOrd ordering; IU32 array_type_index]
  | In_ArrayAtomicGetU ordering array_type_index => [IOrd ordering; IU32 array_type_index]
  | In_ArrayAtomicSet ordering array_type_index => [IOrd ordering; IU32 array_type_index]
  | In_ArrayAtomicRmwAdd ordering array_type_index => [IOrd ordering; IU32 array_type_index]
  | In_ArrayAtomicRmwSub ordering array_type_index => [IOrd ordering; IU32 array_type_index]
  | In_ArrayAtomicRmwAnd ordering array_type_index => [IOrd ordering; IU32 array_type_index]
  | In_ArrayAtomicRmwOr ordering array_type_index => [IOrd ordering; IU32 array_type_index]
  | In_ArrayAtomicRmwXor ordering array_type_index => [IOrd ordering; IU32 array_type_index]
  | In_ArrayAtomicRmwXchg ordering array_type_index => [IOrd ordering; IU32 array_type_index]
  | In_ArrayAtomicRmwCmpxchg ordering array_type_index => [IOrd ordering; IU32 array_type_index]
  | In_RefI31Shared => []
  | In_ContNew a0 => [IU32 a0]
  | In_ContBind argument_index result_index => [IU32 argument_index; IU32 result_index]
  | In_Suspend a0 => [IU32 a0]
  | In_Resume cont_type_index resume_table => [IU32 cont_type_index; IHandlers resume_table]
  | In_ResumeThrow cont_type_index tag_index resume_table => [IU32 cont_type_index; IU32 tag_index; IHandlers resume_table]
  | In_ResumeThrowRef cont_type_index resume_table => [IU32 cont_type_index; IHandlers resume_table]
  | In_Switch cont_type_index tag_index => [IU32 cont_type_index; IU32 tag_index]
  | In_I64Add128 => []
  | In_I64Sub128 => []
  | In_I64MulWideS => []
  | In_I64MulWideU => []
  | In_RefGetDesc a0 => [IU32 a0]
  | In_RefCastDescEqNonNull a0 => [IHeap a0]
  | In_RefCastDescEqNullable a0 => [IHeap a0]
  | In_BrOnCastDescEq relative_depth from_ref_type to_ref_type => [IU32 relative_depth; IRef from_ref_type; IRef to_ref_type]
  | In_BrOnCastDescEqFail relative_depth from_ref_type to_ref_type => [IU32 relative_depth; IRef from_ref_type; IRef to_ref_type]
  end.

(** An instruction the reader is expected to accept where the innermost open block is of kind [cur]. *)
Definition instr_ok (ft : features) (i : instr) : Prop := imms_ok ft (imms i).
Definition frame_ok (cur : frame_kind) (i : instr) : Prop :=
  match i with
  | In_Else => cur = FIf
  | In_Catch _ | In_CatchAll => cur = FLegacyTry \/ cur = FLegacyCatch
  | In_Delegate _ => cur = FLegacyTry
  | _ => True
  end.
