(** Generated by tools/gen_instr.py from the tables of both crates: do not edit. *)
From Verif.Base Require Import Prelude.
From Verif.Reader Require Import Model.
From Verif.Leb Require Import Model.
From Verif.Codec Require Import Kit.
From Verif.Types Require Import RefModel CodecModel EntityModel CodecProofs.
From Verif.Instr Require Import ImmModel ImmSpec ImmProofs Ops.

(** The parsed form of an instruction that is written (a tool of the proofs). *)
Definition den (i : instr) : operator :=
  match i with
  | In_Unreachable => Op_Unreachable
  | In_Nop => Op_Nop
  | In_Block a0 => Op_Block (d_block a0)
  | In_Loop a0 => Op_Loop (d_block a0)
  | In_If a0 => Op_If (d_block a0)
  | In_Else => Op_Else
  | In_End => Op_End
  | In_Br a0 => Op_Br a0
  | In_BrIf a0 => Op_BrIf a0
  | In_BrTable a0 a1 => Op_BrTable (d_br a0 a1)
  | In_BrOnNull a0 => Op_BrOnNull a0
  | In_BrOnNonNull a0 => Op_BrOnNonNull a0
  | In_Return => Op_Return
  | In_Call a0 => Op_Call a0
  | In_CallRef a0 => Op_CallRef a0
  | In_CallIndirect type_index table_index => Op_CallIndirect type_index table_index
  | In_ReturnCallRef a0 => Op_ReturnCallRef a0
  | In_ReturnCall a0 => Op_ReturnCall a0
  | In_ReturnCallIndirect type_index table_index => Op_ReturnCallIndirect type_index table_index
  | In_TryTable a0 a1 => Op_TryTable (d_try a0 a1)
  | In_Throw a0 => Op_Throw a0
  | In_ThrowRef => Op_ThrowRef
  | In_Try a0 => Op_Try (d_block a0)
  | In_Delegate a0 => Op_Delegate a0
  | In_Catch a0 => Op_Catch a0
  | In_CatchAll => Op_CatchAll
  | In_Rethrow a0 => Op_Rethrow a0
  | In_Drop => Op_Drop
  | In_Select => Op_Select
  | In_LocalGet a0 => Op_LocalGet a0
  | In_LocalSet a0 => Op_LocalSet a0
  | In_LocalTee a0 => Op_LocalTee a0
  | In_GlobalGet a0 => Op_GlobalGet a0
  | In_GlobalSet a0 => Op_GlobalSet a0
  | In_I32Load a0 => Op_I32Load (d_memarg 2 a0)
  | In_I64Load a0 => Op_I64Load (d_memarg 3 a0)
  | In_F32Load a0 => Op_F32Load (d_memarg 2 a0)
  | In_F64Load a0 => Op_F64Load (d_memarg 3 a0)
  | In_I32Load8S a0 => Op_I32Load8S (d_memarg 0 a0)
  | In_I32Load8U a0 => Op_I32Load8U (d_memarg 0 a0)
  | In_I32Load16S a0 => Op_I32Load16S (d_memarg 1 a0)
  | In_I32Load16U a0 => Op_I32Load16U (d_memarg 1 a0)
  | In_I64Load8S a0 => Op_I64Load8S (d_memarg 0 a0)
  | In_I64Load8U a0 => Op_I64Load8U (d_memarg 0 a0)
  | In_I64Load16S a0 => Op_I64Load16S (d_memarg 1 a0)
  | In_I64Load16U a0 => Op_I64Load16U (d_memarg 1 a0)
  | In_I64Load32S a0 => Op_I64Load32S (d_memarg 2 a0)
  | In_I64Load32U a0 => Op_I64Load32U (d_memarg 2 a0)
  | In_I32Store a0 => Op_I32Store (d_memarg 2 a0)
  | In_I64Store a0 => Op_I64Store (d_memarg 3 a0)
  | In_F32Store a0 => Op_F32Store (d_memarg 2 a0)
  | In_F64Store a0 => Op_F64Store (d_memarg 3 a0)
  | In_I32Store8 a0 => Op_I32Store8 (d_memarg 0 a0)
  | In_I32Store16 a0 => Op_I32Store16 (d_memarg 1 a0)
  | In_I64Store8 a0 => Op_I64Store8 (d_memarg 0 a0)
  | In_I64Store16 a0 => Op_I64Store16 (d_memarg 1 a0)
  | In_I64Store32 a0 => Op_I64Store32 (d_memarg 2 a0)
  | In_MemorySize a0 => Op_MemorySize a0
  | In_MemoryGrow a0 => Op_MemoryGrow a0
  | In_MemoryInit mem data_index => Op_MemoryInit data_index mem
  | In_DataDrop a0 => Op_DataDrop a0
  | In_MemoryCopy src_mem dst_mem => Op_MemoryCopy dst_mem src_mem
  | In_MemoryFill a0 => Op_MemoryFill a0
  | In_MemoryDiscard a0 => Op_MemoryDiscard a0
  | In_I32Const a0 => Op_I32Const a0
  | In_I64Const a0 => Op_I64Const a0
  | In_F32Const a0 => Op_F32Const a0
  | In_F64Const a0 => Op_F64Const a0
  | In_I32Eqz => Op_I32Eqz
  | In_I32Eq => Op_I32Eq
  | In_I32Ne => Op_I32Ne
  | In_I32LtS => Op_I32LtS
  | In_I32LtU => Op_I32LtU
  | In_I32GtS => Op_I32GtS
  | In_I32GtU => Op_I32GtU
  | In_I32LeS => Op_I32LeS
  | In_I32LeU => Op_I32LeU
  | In_I32GeS => Op_I32GeS
  | In_I32GeU => Op_I32GeU
  | In_I64Eqz => Op_I64Eqz
  | In_I64Eq => Op_I64Eq
  | In_I64Ne => Op_I64Ne
  | In_I64LtS => Op_I64LtS
  | In_I64LtU => Op_I64LtU
  | In_I64GtS => Op_I64GtS
  | In_I64GtU => Op_I64GtU
  | In_I64LeS => Op_I64LeS
  | In_I64LeU => Op_I64LeU
  | In_I64GeS => Op_I64GeS
  | In_I64GeU => Op_I64GeU
  | In_F32Eq => Op_F32Eq
  | In_F32Ne => Op_F32Ne
  | In_F32Lt => Op_F32Lt
  | In_F32Gt => Op_F32Gt
  | In_F32Le => Op_F32Le
  | In_F32Ge => Op_F32Ge
  | In_F64Eq => Op_F64Eq
  | In_F64Ne => Op_F64Ne
  | In_F64Lt => Op_F64Lt
  | In_F64Gt => Op_F64Gt
  | In_F64Le => Op_F64Le
  | In_F64Ge => Op_F64Ge
  | In_I32Clz => Op_I32Clz
  | In_I32Ctz => Op_I32Ctz
  | In_I32Popcnt => Op_I32Popcnt
  | In_I32Add => Op_I32Add
  | In_I32Sub => Op_I32Sub
  | In_I32Mul => Op_I32Mul
  | In_I32DivS => Op_I32DivS
  | In_I32DivU => Op_I32DivU
  | In_I32RemS => Op_I32RemS
  | In_I32RemU => Op_I32RemU
  | In_I32And => Op_I32And
  | In_I32Or => Op_I32Or
  | In_I32Xor => Op_I32Xor
  | In_I32Shl => Op_I32Shl
  | In_I32ShrS => Op_I32ShrS
  | In_I32ShrU => Op_I32ShrU
  | In_I32Rotl => Op_I32Rotl
  | In_I32Rotr => Op_I32Rotr
  | In_I64Clz => Op_I64Clz
  | In_I64Ctz => Op_I64Ctz
  | In_I64Popcnt => Op_I64Popcnt
  | In_I64Add => Op_I64Add
  | In_I64Sub => Op_I64Sub
  | In_I64Mul => Op_I64Mul
  | In_I64DivS => Op_I64DivS
  | In_I64DivU => Op_I64DivU
  | In_I64RemS => Op_I64RemS
  | In_I64RemU => Op_I64RemU
  | In_I64And => Op_I64And
  | In_I64Or => Op_I64Or
  | In_I64Xor => Op_I64Xor
  | In_I64Shl => Op_I64Shl
  | In_I64ShrS => Op_I64ShrS
  | In_I64ShrU => Op_I64ShrU
  | In_I64Rotl => Op_I64Rotl
  | In_I64Rotr => Op_I64Rotr
  | In_F32Abs => Op_F32Abs
  | In_F32Neg => Op_F32Neg
  | In_F32Ceil => Op_F32Ceil
  | In_F32Floor => Op_F32Floor
  | In_F32Trunc => Op_F32Trunc
  | In_F32Nearest => Op_F32Nearest
  | In_F32Sqrt => Op_F32Sqrt
  | In_F32Add => Op_F32Add
  | In_F32Sub => Op_F32Sub
  | In_F32Mul => Op_F32Mul
  | In_F32Div => Op_F32Div
  | In_F32Min => Op_F32Min
  | In_F32Max => Op_F32Max
  | In_F32Copysign => Op_F32Copysign
  | In_F64Abs => Op_F64Abs
  | In_F64Neg => Op_F64Neg
  | In_F64Ceil => Op_F64Ceil
  | In_F64Floor => Op_F64Floor
  | In_F64Trunc => Op_F64Trunc
  | In_F64Nearest => Op_F64Nearest
  | In_F64Sqrt => Op_F64Sqrt
  | In_F64Add => Op_F64Add
  | In_F64Sub => Op_F64Sub
  | In_F64Mul => Op_F64Mul
  | In_F64Div => Op_F64Div
  | In_F64Min => Op_F64Min
  | In_F64Max => Op_F64Max
  | In_F64Copysign => Op_F64Copysign
  | In_I32WrapI64 => Op_I32WrapI64
  | In_I32TruncF32S => Op_I32TruncF32S
  | In_I32TruncF32U => Op_I32TruncF32U
  | In_I32TruncF64S => Op_I32TruncF64S
  | In_I32TruncF64U => Op_I32TruncF64U
  | In_I64ExtendI32S => Op_I64ExtendI32S
  | In_I64ExtendI32U => Op_I64ExtendI32U
  | In_I64TruncF32S => Op_I64TruncF32S
  | In_I64TruncF32U => Op_I64TruncF32U
  | In_I64TruncF64S => Op_I64TruncF64S
  | In_I64TruncF64U => Op_I64TruncF64U
  | In_F32ConvertI32S => Op_F32ConvertI32S
  | In_F32ConvertI32U => Op_F32ConvertI32U
  | In_F32ConvertI64S => Op_F32ConvertI64S
  | In_F32ConvertI64U => Op_F32ConvertI64U
  | In_F32DemoteF64 => Op_F32DemoteF64
  | In_F64ConvertI32S => Op_F64ConvertI32S
  | In_F64ConvertI32U => Op_F64ConvertI32U
  | In_F64ConvertI64S => Op_F64ConvertI64S
  | In_F64ConvertI64U => Op_F64ConvertI64U
  | In_F64PromoteF32 => Op_F64PromoteF32
  | In_I32ReinterpretF32 => Op_I32ReinterpretF32
  | In_I64ReinterpretF64 => Op_I64ReinterpretF64
  | In_F32ReinterpretI32 => Op_F32ReinterpretI32
  | In_F64ReinterpretI64 => Op_F64ReinterpretI64
  | In_I32Extend8S => Op_I32Extend8S
  | In_I32Extend16S => Op_I32Extend16S
  | In_I64Extend8S => Op_I64Extend8S
  | In_I64Extend16S => Op_I64Extend16S
  | In_I64Extend32S => Op_I64Extend32S
  | In_I32TruncSatF32S => Op_I32TruncSatF32S
  | In_I32TruncSatF32U => Op_I32TruncSatF32U
  | In_I32TruncSatF64S => Op_I32TruncSatF64S
  | In_I32TruncSatF64U => Op_I32TruncSatF64U
  | In_I64TruncSatF32S => Op_I64TruncSatF32S
  | In_I64TruncSatF32U => Op_I64TruncSatF32U
  | In_I64TruncSatF64S => Op_I64TruncSatF64S
  | In_I64TruncSatF64U => Op_I64TruncSatF64U
  | In_TypedSelect a0 => Op_TypedSelect (d_val a0)
  | In_TypedSelectMulti a0 => Op_TypedSelectMulti (map d_val a0)
  | In_RefNull a0 => Op_RefNull (d_heap a0)
  | In_RefIsNull => Op_RefIsNull
  | In_RefFunc a0 => Op_RefFunc a0
  | In_RefEq => Op_RefEq
  | In_RefAsNonNull => Op_RefAsNonNull
  | In_StructNew a0 => Op_StructNew a0
  | In_StructNewDefault a0 => Op_StructNewDefault a0
  | In_StructGet struct_type_index field_index => Op_StructGet struct_type_index field_index
  | In_StructGetS struct_type_index field_index => Op_StructGetS struct_type_index field_index
  | In_StructGetU struct_type_index field_index => Op_StructGetU struct_type_index field_index
  | In_StructSet struct_type_index field_index => Op_StructSet struct_type_index field_index
  | In_StructNewDesc a0 => Op_StructNewDesc a0
  | In_StructNewDefaultDesc a0 => Op_StructNewDefaultDesc a0
  | In_ArrayNew a0 => Op_ArrayNew a0
  | In_ArrayNewDefault a0 => Op_ArrayNewDefault a0
  | In_ArrayNewFixed array_type_index array_size => Op_ArrayNewFixed array_type_index array_size
  | In_ArrayNewData array_type_index array_data_index => Op_ArrayNewData array_type_index array_data_index
  | In_ArrayNewElem array_type_index array_elem_index => Op_ArrayNewElem array_type_index array_elem_index
  | In_ArrayGet a0 => Op_ArrayGet a0
  | In_ArrayGetS a0 => Op_ArrayGetS a0
  | In_ArrayGetU a0 => Op_ArrayGetU a0
  | In_ArraySet a0 => Op_ArraySet a0
  | In_ArrayLen => Op_ArrayLen
  | In_ArrayFill a0 => Op_ArrayFill a0
  | In_ArrayCopy array_type_index_dst array_type_index_src => Op_ArrayCopy array_type_index_dst array_type_index_src
  | In_ArrayInitData array_type_index array_data_index => Op_ArrayInitData array_type_index array_data_index
  | In_ArrayInitElem array_type_index array_elem_index => Op_ArrayInitElem array_type_index array_elem_index
  | In_RefTestNonNull a0 => Op_RefTestNonNull (d_heap a0)
  | In_RefTestNullable a0 => Op_RefTestNullable (d_heap a0)
  | In_RefCastNonNull a0 => Op_RefCastNonNull (d_heap a0)
  | In_RefCastNullable a0 => Op_RefCastNullable (d_heap a0)
  | In_BrOnCast relative_depth from_ref_type to_ref_type => Op_BrOnCast relative_depth (d_ref from_ref_type) (d_ref to_ref_type)
  | In_BrOnCastFail relative_depth from_ref_type to_ref_type => Op_BrOnCastFail relative_depth (d_ref from_ref_type) (d_ref to_ref_type)
  | In_AnyConvertExtern => Op_AnyConvertExtern
  | In_ExternConvertAny => Op_ExternConvertAny
  | In_RefI31 => Op_RefI31
  | In_I31GetS => Op_I31GetS
  | In_I31GetU => Op_I31GetU
  | In_TableInit elem_index table => Op_TableInit elem_index table
  | In_ElemDrop a0 => Op_ElemDrop a0
  | In_TableFill a0 => Op_TableFill a0
  | In_TableSet a0 => Op_TableSet a0
  | In_TableGet a0 => Op_TableGet a0
  | In_TableGrow a0 => Op_TableGrow a0
  | In_TableSize a0 => Op_TableSize a0
  | In_TableCopy src_table dst_table => Op_TableCopy dst_table src_table
  | In_V128Load a0 => Op_V128Load (d_memarg 4 a0)
  | In_V128Load8x8S a0 => Op_V128Load8x8S (d_memarg 3 a0)
  | In_V128Load8x8U a0 => Op_V128Load8x8U (d_memarg 3 a0)
  | In_V128Load16x4S a0 => Op_V128Load16x4S (d_memarg 3 a0)
  | In_V128Load16x4U a0 => Op_V128Load16x4U (d_memarg 3 a0)
  | In_V128Load32x2S a0 => Op_V128Load32x2S (d_memarg 3 a0)
  | In_V128Load32x2U a0 => Op_V128Load32x2U (d_memarg 3 a0)
  | In_V128Load8Splat a0 => Op_V128Load8Splat (d_memarg 0 a0)
  | In_V128Load16Splat a0 => Op_V128Load16Splat (d_memarg 1 a0)
  | In_V128Load32Splat a0 => Op_V128Load32Splat (d_memarg 2 a0)
  | In_V128Load64Splat a0 => Op_V128Load64Splat (d_memarg 3 a0)
  | In_V128Load32Zero a0 => Op_V128Load32Zero (d_memarg 2 a0)
  | In_V128Load64Zero a0 => Op_V128Load64Zero (d_memarg 3 a0)
  | In_V128Store a0 => Op_V128Store (d_memarg 4 a0)
  | In_V128Load8Lane memarg lane => Op_V128Load8Lane (d_memarg 0 memarg) lane
  | In_V128Load16Lane memarg lane => Op_V128Load16Lane (d_memarg 1 memarg) lane
  | In_V128Load32Lane memarg lane => Op_V128Load32Lane (d_memarg 2 memarg) lane
  | In_V128Load64Lane memarg lane => Op_V128Load64Lane (d_memarg 3 memarg) lane
  | In_V128Store8Lane memarg lane => Op_V128Store8Lane (d_memarg 0 memarg) lane
  | In_V128Store16Lane memarg lane => Op_V128Store16Lane (d_memarg 1 memarg) lane
  | In_V128Store32Lane memarg lane => Op_V128Store32Lane (d_memarg 2 memarg) lane
  | In_V128Store64Lane memarg lane => Op_V128Store64Lane (d_memarg 3 memarg) lane
  | In_V128Const a0 => Op_V128Const (d_v128 a0)
  | In_I8x16Shuffle a0 => Op_I8x16Shuffle a0
  | In_I8x16ExtractLaneS a0 => Op_I8x16ExtractLaneS a0
  | In_I8x16ExtractLaneU a0 => Op_I8x16ExtractLaneU a0
  | In_I8x16ReplaceLane a0 => Op_I8x16ReplaceLane a0
  | In_I16x8ExtractLaneS a0 => Op_I16x8ExtractLaneS a0
  | In_I16x8ExtractLaneU a0 => Op_I16x8ExtractLaneU a0
  | In_I16x8ReplaceLane a0 => Op_I16x8ReplaceLane a0
  | In_I32x4ExtractLane a0 => Op_I32x4ExtractLane a0
  | In_I32x4ReplaceLane a0 => Op_I32x4ReplaceLane a0
  | In_I64x2ExtractLane a0 => Op_I64x2ExtractLane a0
  | In_I64x2ReplaceLane a0 => Op_I64x2ReplaceLane a0
  | In_F32x4ExtractLane a0 => Op_F32x4ExtractLane a0
  | In_F32x4ReplaceLane a0 => Op_F32x4ReplaceLane a0
  | In_F64x2ExtractLane a0 => Op_F64x2ExtractLane a0
  | In_F64x2ReplaceLane a0 => Op_F64x2ReplaceLane a0
  | In_I8x16Swizzle => Op_I8x16Swizzle
  | In_I8x16Splat => Op_I8x16Splat
  | In_I16x8Splat => Op_I16x8Splat
  | In_I32x4Splat => Op_I32x4Splat
  | In_I64x2Splat => Op_I64x2Splat
  | In_F32x4Splat => Op_F32x4Splat
  | In_F64x2Splat => Op_F64x2Splat
  | In_I8x16Eq => Op_I8x16Eq
  | In_I8x16Ne => Op_I8x16Ne
  | In_I8x16LtS => Op_I8x16LtS
  | In_I8x16LtU => Op_I8x16LtU
  | In_I8x16GtS => Op_I8x16GtS
  | In_I8x16GtU => Op_I8x16GtU
  | In_I8x16LeS => Op_I8x16LeS
  | In_I8x16LeU => Op_I8x16LeU
  | In_I8x16GeS => Op_I8x16GeS
  | In_I8x16GeU => Op_I8x16GeU
  | In_I16x8Eq => Op_I16x8Eq
  | In_I16x8Ne => Op_I16x8Ne
  | In_I16x8LtS => Op_I16x8LtS
  | In_I16x8LtU => Op_I16x8LtU
  | In_I16x8GtS => Op_I16x8GtS
  | In_I16x8GtU => Op_I16x8GtU
  | In_I16x8LeS => Op_I16x8LeS
  | In_I16x8LeU => Op_I16x8LeU
  | In_I16x8GeS => Op_I16x8GeS
  | In_I16x8GeU => Op_I16x8GeU
  | In_I32x4Eq => Op_I32x4Eq
  | In_I32x4Ne => Op_I32x4Ne
  | In_I32x4LtS => Op_I32x4LtS
  | In_I32x4LtU => Op_I32x4LtU
  | In_I32x4GtS => Op_I32x4GtS
  | In_I32x4GtU => Op_I32x4GtU
  | In_I32x4LeS => Op_I32x4LeS
  | In_I32x4LeU => Op_I32x4LeU
  | In_I32x4GeS => Op_I32x4GeS
  | In_I32x4GeU => Op_I32x4GeU
  | In_I64x2Eq => Op_I64x2Eq
  | In_I64x2Ne => Op_I64x2Ne
  | In_I64x2LtS => Op_I64x2LtS
  | In_I64x2GtS => Op_I64x2GtS
  | In_I64x2LeS => Op_I64x2LeS
  | In_I64x2GeS => Op_I64x2GeS
  | In_F32x4Eq => Op_F32x4Eq
  | In_F32x4Ne => Op_F32x4Ne
  | In_F32x4Lt => Op_F32x4Lt
  | In_F32x4Gt => Op_F32x4Gt
  | In_F32x4Le => Op_F32x4Le
  | In_F32x4Ge => Op_F32x4Ge
  | In_F64x2Eq => Op_F64x2Eq
  | In_F64x2Ne => Op_F64x2Ne
  | In_F64x2Lt => Op_F64x2Lt
  | In_F64x2Gt => Op_F64x2Gt
  | In_F64x2Le => Op_F64x2Le
  | In_F64x2Ge => Op_F64x2Ge
  | In_V128Not => Op_V128Not
  | In_V128And => Op_V128And
  | In_V128AndNot => Op_V128AndNot
  | In_V128Or => Op_V128Or
  | In_V128Xor => Op_V128Xor
  | In_V128Bitselect => Op_V128Bitselect
  | In_V128AnyTrue => Op_V128AnyTrue
  | In_I8x16Abs => Op_I8x16Abs
  | In_I8x16Neg => Op_I8x16Neg
  | In_I8x16Popcnt => Op_I8x16Popcnt
  | In_I8x16AllTrue => Op_I8x16AllTrue
  | In_I8x16Bitmask => Op_I8x16Bitmask
  | In_I8x16NarrowI16x8S => Op_I8x16NarrowI16x8S
  | In_I8x16NarrowI16x8U => Op_I8x16NarrowI16x8U
  | In_I8x16Shl => Op_I8x16Shl
  | In_I8x16ShrS => Op_I8x16ShrS
  | In_I8x16ShrU => Op_I8x16ShrU
  | In_I8x16Add => Op_I8x16Add
  | In_I8x16AddSatS => Op_I8x16AddSatS
  | In_I8x16AddSatU => Op_I8x16AddSatU
  | In_I8x16Sub => Op_I8x16Sub
  | In_I8x16SubSatS => Op_I8x16SubSatS
  | In_I8x16SubSatU => Op_I8x16SubSatU
  | In_I8x16MinS => Op_I8x16MinS
  | In_I8x16MinU => Op_I8x16MinU
  | In_I8x16MaxS => Op_I8x16MaxS
  | In_I8x16MaxU => Op_I8x16MaxU
  | In_I8x16AvgrU => Op_I8x16AvgrU
  | In_I16x8ExtAddPairwiseI8x16S => Op_I16x8ExtAddPairwiseI8x16S
  | In_I16x8ExtAddPairwiseI8x16U => Op_I16x8ExtAddPairwiseI8x16U
  | In_I16x8Abs => Op_I16x8Abs
  | In_I16x8Neg => Op_I16x8Neg
  | In_I16x8Q15MulrSatS => Op_I16x8Q15MulrSatS
  | In_I16x8AllTrue => Op_I16x8AllTrue
  | In_I16x8Bitmask => Op_I16x8Bitmask
  | In_I16x8NarrowI32x4S => Op_I16x8NarrowI32x4S
  | In_I16x8NarrowI32x4U => Op_I16x8NarrowI32x4U
  | In_I16x8ExtendLowI8x16S => Op_I16x8ExtendLowI8x16S
  | In_I16x8ExtendHighI8x16S => Op_I16x8ExtendHighI8x16S
  | In_I16x8ExtendLowI8x16U => Op_I16x8ExtendLowI8x16U
  | In_I16x8ExtendHighI8x16U => Op_I16x8ExtendHighI8x16U
  | In_I16x8Shl => Op_I16x8Shl
  | In_I16x8ShrS => Op_I16x8ShrS
  | In_I16x8ShrU => Op_I16x8ShrU
  | In_I16x8Add => Op_I16x8Add
  | In_I16x8AddSatS => Op_I16x8AddSatS
  | In_I16x8AddSatU => Op_I16x8AddSatU
  | In_I16x8Sub => Op_I16x8Sub
  | In_I16x8SubSatS => Op_I16x8SubSatS
  | In_I16x8SubSatU => Op_I16x8SubSatU
  | In_I16x8Mul => Op_I16x8Mul
  | In_I16x8MinS => Op_I16x8MinS
  | In_I16x8MinU => Op_I16x8MinU
  | In_I16x8MaxS => Op_I16x8MaxS
  | In_I16x8MaxU => Op_I16x8MaxU
  | In_I16x8AvgrU => Op_I16x8AvgrU
  | In_I16x8ExtMulLowI8x16S => Op_I16x8ExtMulLowI8x16S
  | In_I16x8ExtMulHighI8x16S => Op_I16x8ExtMulHighI8x16S
  | In_I16x8ExtMulLowI8x16U => Op_I16x8ExtMulLowI8x16U
  | In_I16x8ExtMulHighI8x16U => Op_I16x8ExtMulHighI8x16U
  | In_I32x4ExtAddPairwiseI16x8S => Op_I32x4ExtAddPairwiseI16x8S
  | In_I32x4ExtAddPairwiseI16x8U => Op_I32x4ExtAddPairwiseI16x8U
  | In_I32x4Abs => Op_I32x4Abs
  | In_I32x4Neg => Op_I32x4Neg
  | In_I32x4AllTrue => Op_I32x4AllTrue
  | In_I32x4Bitmask => Op_I32x4Bitmask
  | In_I32x4ExtendLowI16x8S => Op_I32x4ExtendLowI16x8S
  | In_I32x4ExtendHighI16x8S => Op_I32x4ExtendHighI16x8S
  | In_I32x4ExtendLowI16x8U => Op_I32x4ExtendLowI16x8U
  | In_I32x4ExtendHighI16x8U => Op_I32x4ExtendHighI16x8U
  | In_I32x4Shl => Op_I32x4Shl
  | In_I32x4ShrS => Op_I32x4ShrS
  | In_I32x4ShrU => Op_I32x4ShrU
  | In_I32x4Add => Op_I32x4Add
  | In_I32x4Sub => Op_I32x4Sub
  | In_I32x4Mul => Op_I32x4Mul
  | In_I32x4MinS => Op_I32x4MinS
  | In_I32x4MinU => Op_I32x4MinU
  | In_I32x4MaxS => Op_I32x4MaxS
  | In_I32x4MaxU => Op_I32x4MaxU
  | In_I32x4DotI16x8S => Op_I32x4DotI16x8S
  | In_I32x4ExtMulLowI16x8S => Op_I32x4ExtMulLowI16x8S
  | In_I32x4ExtMulHighI16x8S => Op_I32x4ExtMulHighI16x8S
  | In_I32x4ExtMulLowI16x8U => Op_I32x4ExtMulLowI16x8U
  | In_I32x4ExtMulHighI16x8U => Op_I32x4ExtMulHighI16x8U
  | In_I64x2Abs => Op_I64x2Abs
  | In_I64x2Neg => Op_I64x2Neg
  | In_I64x2AllTrue => Op_I64x2AllTrue
  | In_I64x2Bitmask => Op_I64x2Bitmask
  | In_I64x2ExtendLowI32x4S => Op_I64x2ExtendLowI32x4S
  | In_I64x2ExtendHighI32x4S => Op_I64x2ExtendHighI32x4S
  | In_I64x2ExtendLowI32x4U => Op_I64x2ExtendLowI32x4U
  | In_I64x2ExtendHighI32x4U => Op_I64x2ExtendHighI32x4U
  | In_I64x2Shl => Op_I64x2Shl
  | In_I64x2ShrS => Op_I64x2ShrS
  | In_I64x2ShrU => Op_I64x2ShrU
  | In_I64x2Add => Op_I64x2Add
  | In_I64x2Sub => Op_I64x2Sub
  | In_I64x2Mul => Op_I64x2Mul
  | In_I64x2ExtMulLowI32x4S => Op_I64x2ExtMulLowI32x4S
  | In_I64x2ExtMulHighI32x4S => Op_I64x2ExtMulHighI32x4S
  | In_I64x2ExtMulLowI32x4U => Op_I64x2ExtMulLowI32x4U
  | In_I64x2ExtMulHighI32x4U => Op_I64x2ExtMulHighI32x4U
  | In_F32x4Ceil => Op_F32x4Ceil
  | In_F32x4Floor => Op_F32x4Floor
  | In_F32x4Trunc => Op_F32x4Trunc
  | In_F32x4Nearest => Op_F32x4Nearest
  | In_F32x4Abs => Op_F32x4Abs
  | In_F32x4Neg => Op_F32x4Neg
  | In_F32x4Sqrt => Op_F32x4Sqrt
  | In_F32x4Add => Op_F32x4Add
  | In_F32x4Sub => Op_F32x4Sub
  | In_F32x4Mul => Op_F32x4Mul
  | In_F32x4Div => Op_F32x4Div
  | In_F32x4Min => Op_F32x4Min
  | In_F32x4Max => Op_F32x4Max
  | In_F32x4PMin => Op_F32x4PMin
  | In_F32x4PMax => Op_F32x4PMax
  | In_F64x2Ceil => Op_F64x2Ceil
  | In_F64x2Floor => Op_F64x2Floor
  | In_F64x2Trunc => Op_F64x2Trunc
  | In_F64x2Nearest => Op_F64x2Nearest
  | In_F64x2Abs => Op_F64x2Abs
  | In_F64x2Neg => Op_F64x2Neg
  | In_F64x2Sqrt => Op_F64x2Sqrt
  | In_F64x2Add => Op_F64x2Add
  | In_F64x2Sub => Op_F64x2Sub
  | In_F64x2Mul => Op_F64x2Mul
  | In_F64x2Div => Op_F64x2Div
  | In_F64x2Min => Op_F64x2Min
  | In_F64x2Max => Op_F64x2Max
  | In_F64x2PMin => Op_F64x2PMin
  | In_F64x2PMax => Op_F64x2PMax
  | In_I32x4TruncSatF32x4S => Op_I32x4TruncSatF32x4S
  | In_I32x4TruncSatF32x4U => Op_I32x4TruncSatF32x4U
  | In_F32x4ConvertI32x4S => Op_F32x4ConvertI32x4S
  | In_F32x4ConvertI32x4U => Op_F32x4ConvertI32x4U
  | In_I32x4TruncSatF64x2SZero => Op_I32x4TruncSatF64x2SZero
  | In_I32x4TruncSatF64x2UZero => Op_I32x4TruncSatF64x2UZero
  | In_F64x2ConvertLowI32x4S => Op_F64x2ConvertLowI32x4S
  | In_F64x2ConvertLowI32x4U => Op_F64x2ConvertLowI32x4U
  | In_F32x4DemoteF64x2Zero => Op_F32x4DemoteF64x2Zero
  | In_F64x2PromoteLowF32x4 => Op_F64x2PromoteLowF32x4
  | In_I8x16RelaxedSwizzle => Op_I8x16RelaxedSwizzle
  | In_I32x4RelaxedTruncF32x4S => Op_I32x4RelaxedTruncF32x4S
  | In_I32x4RelaxedTruncF32x4U => Op_I32x4RelaxedTruncF32x4U
  | In_I32x4RelaxedTruncF64x2SZero => Op_I32x4RelaxedTruncF64x2SZero
  | In_I32x4RelaxedTruncF64x2UZero => Op_I32x4RelaxedTruncF64x2UZero
  | In_F32x4RelaxedMadd => Op_F32x4RelaxedMadd
  | In_F32x4RelaxedNmadd => Op_F32x4RelaxedNmadd
  | In_F64x2RelaxedMadd => Op_F64x2RelaxedMadd
  | In_F64x2RelaxedNmadd => Op_F64x2RelaxedNmadd
  | In_I8x16RelaxedLaneselect => Op_I8x16RelaxedLaneselect
  | In_I16x8RelaxedLaneselect => Op_I16x8RelaxedLaneselect
  | In_I32x4RelaxedLaneselect => Op_I32x4RelaxedLaneselect
  | In_I64x2RelaxedLaneselect => Op_I64x2RelaxedLaneselect
  | In_F32x4RelaxedMin => Op_F32x4RelaxedMin
  | In_F32x4RelaxedMax => Op_F32x4RelaxedMax
  | In_F64x2RelaxedMin => Op_F64x2RelaxedMin
  | In_F64x2RelaxedMax => Op_F64x2RelaxedMax
  | In_I16x8RelaxedQ15mulrS => Op_I16x8RelaxedQ15mulrS
  | In_I16x8RelaxedDotI8x16I7x16S => Op_I16x8RelaxedDotI8x16I7x16S
  | In_I32x4RelaxedDotI8x16I7x16AddS => Op_I32x4RelaxedDotI8x16I7x16AddS
  | In_MemoryAtomicNotify a0 => Op_MemoryAtomicNotify (d_memarg 2 a0)
  | In_MemoryAtomicWait32 a0 => Op_MemoryAtomicWait32 (d_memarg 2 a0)
  | In_MemoryAtomicWait64 a0 => Op_MemoryAtomicWait64 (d_memarg 3 a0)
  | In_AtomicFence => Op_AtomicFence
  | In_I32AtomicLoad a0 => Op_I32AtomicLoad (d_memarg 2 a0)
  | In_I64AtomicLoad a0 => Op_I64AtomicLoad (d_memarg 3 a0)
  | In_I32AtomicLoad8U a0 => Op_I32AtomicLoad8U (d_memarg 0 a0)
  | In_I32AtomicLoad16U a0 => Op_I32AtomicLoad16U (d_memarg 1 a0)
  | In_I64AtomicLoad8U a0 => Op_I64AtomicLoad8U (d_memarg 0 a0)
  | In_I64AtomicLoad16U a0 => Op_I64AtomicLoad16U (d_memarg 1 a0)
  | In_I64AtomicLoad32U a0 => Op_I64AtomicLoad32U (d_memarg 2 a0)
  | In_I32AtomicStore a0 => Op_I32AtomicStore (d_memarg 2 a0)
  | In_I64AtomicStore a0 => Op_I64AtomicStore (d_memarg 3 a0)
  | In_I32AtomicStore8 a0 => Op_I32AtomicStore8 (d_memarg 0 a0)
  | In_I32AtomicStore16 a0 => Op_I32AtomicStore16 (d_memarg 1 a0)
  | In_I64AtomicStore8 a0 => Op_I64AtomicStore8 (d_memarg 0 a0)
  | In_I64AtomicStore16 a0 => Op_I64AtomicStore16 (d_memarg 1 a0)
  | In_I64AtomicStore32 a0 => Op_I64AtomicStore32 (d_memarg 2 a0)
  | In_I32AtomicRmwAdd a0 => Op_I32AtomicRmwAdd (d_memarg 2 a0)
  | In_I64AtomicRmwAdd a0 => Op_I64AtomicRmwAdd (d_memarg 3 a0)
  | In_I32AtomicRmw8AddU a0 => Op_I32AtomicRmw8AddU (d_memarg 0 a0)
  | In_I32AtomicRmw16AddU a0 => Op_I32AtomicRmw16AddU (d_memarg 1 a0)
  | In_I64AtomicRmw8AddU a0 => Op_I64AtomicRmw8AddU (d_memarg 0 a0)
  | In_I64AtomicRmw16AddU a0 => Op_I64AtomicRmw16AddU (d_memarg 1 a0)
  | In_I64AtomicRmw32AddU a0 => Op_I64AtomicRmw32AddU (d_memarg 2 a0)
  | In_I32AtomicRmwSub a0 => Op_I32AtomicRmwSub (d_memarg 2 a0)
  | In_I64AtomicRmwSub a0 => Op_I64AtomicRmwSub (d_memarg 3 a0)
  | In_I32AtomicRmw8SubU a0 => Op_I32AtomicRmw8SubU (d_memarg 0 a0)
  | In_I32AtomicRmw16SubU a0 => Op_I32AtomicRmw16SubU (d_memarg 1 a0)
  | In_I64AtomicRmw8SubU a0 => Op_I64AtomicRmw8SubU (d_memarg 0 a0)
  | In_I64AtomicRmw16SubU a0 => Op_I64AtomicRmw16SubU (d_memarg 1 a0)
  | In_I64AtomicRmw32SubU a0 => Op_I64AtomicRmw32SubU (d_memarg 2 a0)
  | In_I32AtomicRmwAnd a0 => Op_I32AtomicRmwAnd (d_memarg 2 a0)
  | In_I64AtomicRmwAnd a0 => Op_I64AtomicRmwAnd (d_memarg 3 a0)
  | In_I32AtomicRmw8AndU a0 => Op_I32AtomicRmw8AndU (d_memarg 0 a0)
  | In_I32AtomicRmw16AndU a0 => Op_I32AtomicRmw16AndU (d_memarg 1 a0)
  | In_I64AtomicRmw8AndU a0 => Op_I64AtomicRmw8AndU (d_memarg 0 a0)
  | In_I64AtomicRmw16AndU a0 => Op_I64AtomicRmw16AndU (d_memarg 1 a0)
  | In_I64AtomicRmw32AndU a0 => Op_I64AtomicRmw32AndU (d_memarg 2 a0)
  | In_I32AtomicRmwOr a0 => Op_I32AtomicRmwOr (d_memarg 2 a0)
  | In_I64AtomicRmwOr a0 => Op_I64AtomicRmwOr (d_memarg 3 a0)
  | In_I32AtomicRmw8OrU a0 => Op_I32AtomicRmw8OrU (d_memarg 0 a0)
  | In_I32AtomicRmw16OrU a0 => Op_I32AtomicRmw16OrU (d_memarg 1 a0)
  | In_I64AtomicRmw8OrU a0 => Op_I64AtomicRmw8OrU (d_memarg 0 a0)
  | In_I64AtomicRmw16OrU a0 => Op_I64AtomicRmw16OrU (d_memarg 1 a0)
  | In_I64AtomicRmw32OrU a0 => Op_I64AtomicRmw32OrU (d_memarg 2 a0)
  | In_I32AtomicRmwXor a0 => Op_I32AtomicRmwXor (d_memarg 2 a0)
  | In_I64AtomicRmwXor a0 => Op_I64AtomicRmwXor (d_memarg 3 a0)
  | In_I32AtomicRmw8XorU a0 => Op_I32AtomicRmw8XorU (d_memarg 0 a0)
  | In_I32AtomicRmw16XorU a0 => Op_I32AtomicRmw16XorU (d_memarg 1 a0)
  | In_I64AtomicRmw8XorU a0 => Op_I64AtomicRmw8XorU (d_memarg 0 a0)
  | In_I64AtomicRmw16XorU a0 => Op_I64AtomicRmw16XorU (d_memarg 1 a0)
  | In_I64AtomicRmw32XorU a0 => Op_I64AtomicRmw32XorU (d_memarg 2 a0)
  | In_I32AtomicRmwXchg a0 => Op_I32AtomicRmwXchg (d_memarg 2 a0)
  | In_I64AtomicRmwXchg a0 => Op_I64AtomicRmwXchg (d_memarg 3 a0)
  | In_I32AtomicRmw8XchgU a0 => Op_I32AtomicRmw8XchgU (d_memarg 0 a0)
  | In_I32AtomicRmw16XchgU a0 => Op_I32AtomicRmw16XchgU (d_memarg 1 a0)
  | In_I64AtomicRmw8XchgU a0 => Op_I64AtomicRmw8XchgU (d_memarg 0 a0)
  | In_I64AtomicRmw16XchgU a0 => Op_I64AtomicRmw16XchgU (d_memarg 1 a0)
  | In_I64AtomicRmw32XchgU a0 => Op_I64AtomicRmw32XchgU (d_memarg 2 a0)
  | In_I32AtomicRmwCmpxchg a0 => Op_I32AtomicRmwCmpxchg (d_memarg 2 a0)
  | In_I64AtomicRmwCmpxchg a0 => Op_I64AtomicRmwCmpxchg (d_memarg 3 a0)
  | In_I32AtomicRmw8CmpxchgU a0 => Op_I32AtomicRmw8CmpxchgU (d_memarg 0 a0)
  | In_I32AtomicRmw16CmpxchgU a0 => Op_I32AtomicRmw16CmpxchgU (d_memarg 1 a0)
  | In_I64AtomicRmw8CmpxchgU a0 => Op_I64AtomicRmw8CmpxchgU (d_memarg 0 a0)
  | In_I64AtomicRmw16CmpxchgU a0 => Op_I64AtomicRmw16CmpxchgU (d_memarg 1 a0)
  | In_I64AtomicRmw32CmpxchgU a0 => Op_I64AtomicRmw32CmpxchgU (d_memarg 2 a0)
  | In_GlobalAtomicGet ordering global_index => Op_GlobalAtomicGet ordering global_index
  | In_GlobalAtomicSet ordering global_index => Op_GlobalAtomicSet ordering global_index
  | In_GlobalAtomicRmwAdd ordering global_index => Op_GlobalAtomicRmwAdd ordering global_index
  | In_GlobalAtomicRmwSub ordering global_index => Op_GlobalAtomicRmwSub ordering global_index
  | In_GlobalAtomicRmwAnd ordering global_index => Op_GlobalAtomicRmwAnd ordering global_index
  | In_GlobalAtomicRmwOr ordering global_index => Op_GlobalAtomicRmwOr ordering global_index
  | In_GlobalAtomicRmwXor ordering global_index => Op_GlobalAtomicRmwXor ordering global_index
  | In_GlobalAtomicRmwXchg ordering global_index => Op_GlobalAtomicRmwXchg ordering global_index
  | In_GlobalAtomicRmwCmpxchg ordering global_index => Op_GlobalAtomicRmwCmpxchg ordering global_index
  | In_TableAtomicGet ordering table_index => Op_TableAtomicGet ordering table_index
  | In_TableAtomicSet ordering table_index => Op_TableAtomicSet ordering table_index
  | In_TableAtomicRmwXchg ordering table_index => Op_TableAtomicRmwXchg ordering table_index
  | In_TableAtomicRmwCmpxchg ordering table_index => Op_TableAtomicRmwCmpxchg ordering table_index
  | In_StructAtomicGet ordering struct_type_index field_index => Op_StructAtomicGet ordering struct_type_index field_index
  | In_StructAtomicGetS ordering struct_type_index field_index => Op_StructAtomicGetS ordering struct_type_index field_index
  | In_StructAtomicGetU ordering struct_type_index field_index => Op_StructAtomicGetU ordering struct_type_index field_index
  | In_StructAtomicSet ordering struct_type_index field_index => Op_StructAtomicSet ordering struct_type_index field_index
  | In_StructAtomicRmwAdd ordering struct_type_index field_index => Op_StructAtomicRmwAdd ordering struct_type_index field_index
  | In_StructAtomicRmwSub ordering struct_type_index field_index => Op_StructAtomicRmwSub ordering struct_type_index field_index
  | In_StructAtomicRmwAnd ordering struct_type_index field_index => Op_StructAtomicRmwAnd ordering struct_type_index field_index
  | In_StructAtomicRmwOr ordering struct_type_index field_index => Op_StructAtomicRmwOr ordering struct_type_index field_index
  | In_StructAtomicRmwXor ordering struct_type_index field_index => Op_StructAtomicRmwXor ordering struct_type_index field_index
  | In_StructAtomicRmwXchg ordering struct_type_index field_index => Op_StructAtomicRmwXchg ordering struct_type_index field_index
  | In_StructAtomicRmwCmpxchg ordering struct_type_index field_index => Op_StructAtomicRmwCmpxchg ordering struct_type_index field_index
  | In_ArrayAtomicGet ordering array_type_index => Op_ArrayAtomicGet ordering array_type_index
  | In_ArrayAtomicGetS ordering array_type_index => Op_ArrayAtomicGetS ordering array_type_index
  | In_ArrayAtomicGetU ordering array_type_index => Op_ArrayAtomicGetU ordering array_type_index
  | In_ArrayAtomicSet ordering array_type_index => Op_ArrayAtomicSet ordering array_type_index
  | In_ArrayAtomicRmwAdd ordering array_type_index => Op_ArrayAtomicRmwAdd ordering array_type_index
  | In_ArrayAtomicRmwSub ordering array_type_index => Op_ArrayAtomicRmwSub ordering array_type_index
  | In_ArrayAtomicRmwAnd ordering array_type_index => Op_ArrayAtomicRmwAnd ordering array_type_index
  | In_ArrayAtomicRmwOr ordering array_type_index => Op_ArrayAtomicRmwOr ordering array_type_index
  | In_ArrayAtomicRmwXor ordering array_type_index => Op_ArrayAtomicRmwXor ordering array_type_index
  | In_ArrayAtomicRmwXchg ordering array_type_index => Op_ArrayAtomicRmwXchg ordering array_type_index
  | In_ArrayAtomicRmwCmpxchg ordering array_type_index => Op_ArrayAtomicRmwCmpxchg ordering array_type_index
  | In_RefI31Shared => Op_RefI31Shared
  | In_ContNew a0 => Op_ContNew a0
  | In_ContBind argument_index result_index => Op_ContBind argument_index result_index
  | In_Suspend a0 => Op_Suspend a0
  | In_Resume cont_type_index resume_table => Op_Resume cont_type_index resume_table
  | In_ResumeThrow cont_type_index tag_index resume_table => Op_ResumeThrow cont_type_index tag_index resume_table
  | In_ResumeThrowRef cont_type_index resume_table => Op_ResumeThrowRef cont_type_index resume_table
  | In_Switch cont_type_index tag_index => Op_Switch cont_type_index tag_index
  | In_I64Add128 => Op_I64Add128
  | In_I64Sub128 => Op_I64Sub128
  | In_I64MulWideS => Op_I64MulWideS
  | In_I64MulWideU => Op_I64MulWideU
  | In_RefGetDesc a0 => Op_RefGetDesc a0
  | In_RefCastDescEqNonNull a0 => Op_RefCastDescEqNonNull (d_heap a0)
  | In_RefCastDescEqNullable a0 => Op_RefCastDescEqNullable (d_heap a0)
  | In_BrOnCastDescEq relative_depth from_ref_type to_ref_type => Op_BrOnCastDescEq relative_depth (d_ref from_ref_type) (d_ref to_ref_type)
  | In_BrOnCastDescEqFail relative_depth from_ref_type to_ref_type => Op_BrOnCastDescEqFail relative_depth (d_ref from_ref_type) (d_ref to_ref_type)
  end.
