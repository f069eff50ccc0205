(** Generated by tools/gen_instr.py from crates/wasm-encoder/src/reencode.rs: do not edit. *)
From Verif.Base Require Import Prelude.
From Verif.Reader Require Import Model.
From Verif.Leb Require Import Model.
From Verif.Codec Require Import Kit.
From Verif.Types Require Import RefModel CodecModel EntityModel.
From Verif.Instr Require Import ImmModel Ops.

(** [utils::instruction] (reencode.rs:1679-1780), with the default methods of [Reencode]: indices are unchanged.
    [None] is an error or a panic. *)
Definition c_op (o : operator) : option instr :=
  match o with
  | Op_Unreachable => Some In_Unreachable
  | Op_Nop => Some In_Nop
  | Op_Block blockty => match c_block blockty with Some blockty => Some (In_Block blockty) | None => None end
  | Op_Loop blockty => match c_block blockty with Some blockty => Some (In_Loop blockty) | None => None end
  | Op_If blockty => match c_block blockty with Some blockty => Some (In_If blockty) | None => None end
  | Op_Else => Some In_Else
  | Op_End => Some In_End
  | Op_Br relative_depth => Some (In_Br relative_depth)
  | Op_BrIf relative_depth => Some (In_BrIf relative_depth)
  | Op_BrTable targets => match c_br_table targets with Some (a, b) => Some (In_BrTable a b) | None => None end
  | Op_Return => Some In_Return
  | Op_Call function_index => Some (In_Call function_index)
  | Op_CallIndirect type_index table_index => Some (In_CallIndirect type_index table_index)
  | Op_Drop => Some In_Drop
  | Op_Select => Some In_Select
  | Op_LocalGet local_index => Some (In_LocalGet local_index)
  | Op_LocalSet local_index => Some (In_LocalSet local_index)
  | Op_LocalTee local_index => Some (In_LocalTee local_index)
  | Op_GlobalGet global_index => Some (In_GlobalGet global_index)
  | Op_GlobalSet global_index => Some (In_GlobalSet global_index)
  | Op_I32Load memarg => match c_memarg memarg with Some memarg => Some (In_I32Load memarg) | None => None end
  | Op_I64Load memarg => match c_memarg memarg with Some memarg => Some (In_I64Load memarg) | None => None end
  | Op_F32Load memarg => match c_memarg memarg with Some memarg => Some (In_F32Load memarg) | None => None end
  | Op_F64Load memarg => match c_memarg memarg with Some memarg => Some (In_F64Load memarg) | None => None end
  | Op_I32Load8S memarg => match c_memarg memarg with Some memarg => Some (In_I32Load8S memarg) | None => None end
  | Op_I32Load8U memarg => match c_memarg memarg with Some memarg => Some (In_I32Load8U memarg) | None => None end
  | Op_I32Load16S memarg => match c_memarg memarg with Some memarg => Some (In_I32Load16S memarg) | None => None end
  | Op_I32Load16U memarg => match c_memarg memarg with Some memarg => Some (In_I32Load16U memarg) | None => None end
  | Op_I64Load8S memarg => match c_memarg memarg with Some memarg => Some (In_I64Load8S memarg) | None => None end
  | Op_I64Load8U memarg => match c_memarg memarg with Some memarg => Some (In_I64Load8U memarg) | None => None end
  | Op_I64Load16S memarg => match c_memarg memarg with Some memarg => Some (In_I64Load16S memarg) | None => None end
  | Op_I64Load16U memarg => match c_memarg memarg with Some memarg => Some (In_I64Load16U memarg) | None => None end
  | Op_I64Load32S memarg => match c_memarg memarg with Some memarg => Some (In_I64Load32S memarg) | None => None end
  | Op_I64Load32U memarg => match c_memarg memarg with Some memarg => Some (In_I64Load32U memarg) | None => None end
  | Op_I32Store memarg => match c_memarg memarg with Some memarg => Some (In_I32Store memarg) | None => None end
  | Op_I64Store memarg => match c_memarg memarg with Some memarg => Some (In_I64Store memarg) | None => None end
  | Op_F32Store memarg => match c_memarg memarg with Some memarg => Some (In_F32Store memarg) | None => None end
  | Op_F64Store memarg => match c_memarg memarg with Some memarg => Some (In_F64Store memarg) | None => None end
  | Op_I32Store8 memarg => match c_memarg memarg with Some memarg => Some (In_I32Store8 memarg) | None => None end
  | Op_I32Store16 memarg => match c_memarg memarg with Some memarg => Some (In_I32Store16 memarg) | None => None end
  | Op_I64Store8 memarg => match c_memarg memarg with Some memarg => Some (In_I64Store8 memarg) | None => None end
  | Op_I64Store16 memarg => match c_memarg memarg with Some memarg => Some (In_I64Store16 memarg) | None => None end
  | Op_I64Store32 memarg => match c_memarg memarg with Some memarg => Some (In_I64Store32 memarg) | None => None end
  | Op_MemorySize mem => Some (In_MemorySize mem)
  | Op_MemoryGrow mem => Some (In_MemoryGrow mem)
  | Op_I32Const value => Some (In_I32Const value)
  | Op_I64Const value => Some (In_I64Const value)
  | Op_F32Const value => Some (In_F32Const value)
  | Op_F64Const value => Some (In_F64Const value)
  | Op_I32Eqz => Some In_I32Eqz
  | Op_I32Eq => Some In_I32Eq
  | Op_I32Ne => Some In_I32Ne
  | Op_I32LtS => Some In_I32LtS
  | Op_I32LtU => Some In_I32LtU
  | Op_I32GtS => Some In_I32GtS
  | Op_I32GtU => Some In_I32GtU
  | Op_I32LeS => Some In_I32LeS
  | Op_I32LeU => Some In_I32LeU
  | Op_I32GeS => Some In_I32GeS
  | Op_I32GeU => Some In_I32GeU
  | Op_I64Eqz => Some In_I64Eqz
  | Op_I64Eq => Some In_I64Eq
  | Op_I64Ne => Some In_I64Ne
  | Op_I64LtS => Some In_I64LtS
  | Op_I64LtU => Some In_I64LtU
  | Op_I64GtS => Some In_I64GtS
  | Op_I64GtU => Some In_I64GtU
  | Op_I64LeS => Some In_I64LeS
  | Op_I64LeU => Some In_I64LeU
  | Op_I64GeS => Some In_I64GeS
  | Op_I64GeU => Some In_I64GeU
  | Op_F32Eq => Some In_F32Eq
  | Op_F32Ne => Some In_F32Ne
  | Op_F32Lt => Some In_F32Lt
  | Op_F32Gt => Some In_F32Gt
  | Op_F32Le => Some In_F32Le
  | Op_F32Ge => Some In_F32Ge
  | Op_F64Eq => Some In_F64Eq
  | Op_F64Ne => Some In_F64Ne
  | Op_F64Lt => Some In_F64Lt
  | Op_F64Gt => Some In_F64Gt
  | Op_F64Le => Some In_F64Le
  | Op_F64Ge => Some In_F64Ge
  | Op_I32Clz => Some In_I32Clz
  | Op_I32Ctz => Some In_I32Ctz
  | Op_I32Popcnt => Some In_I32Popcnt
  | Op_I32Add => Some In_I32Add
  | Op_I32Sub => Some In_I32Sub
  | Op_I32Mul => Some In_I32Mul
  | Op_I32DivS => Some In_I32DivS
  | Op_I32DivU => Some In_I32DivU
  | Op_I32RemS => Some In_I32RemS
  | Op_I32RemU => Some In_I32RemU
  | Op_I32And => Some In_I32And
  | Op_I32Or => Some In_I32Or
  | Op_I32Xor => Some In_I32Xor
  | Op_I32Shl => Some In_I32Shl
  | Op_I32ShrS => Some In_I32ShrS
  | Op_I32ShrU => Some In_I32ShrU
  | Op_I32Rotl => Some In_I32Rotl
  | Op_I32Rotr => Some In_I32Rotr
  | Op_I64Clz => Some In_I64Clz
  | Op_I64Ctz => Some In_I64Ctz
  | Op_I64Popcnt => Some In_I64Popcnt
  | Op_I64Add => Some In_I64Add
  | Op_I64Sub => Some In_I64Sub
  | Op_I64Mul => Some In_I64Mul
  | Op_I64DivS => Some In_I64DivS
  | Op_I64DivU => Some In_I64DivU
  | Op_I64RemS => Some In_I64RemS
  | Op_I64RemU => Some In_I64RemU
  | Op_I64And => Some In_I64And
  | Op_I64Or => Some In_I64Or
  | Op_I64Xor => Some In_I64Xor
  | Op_I64Shl => Some In_I64Shl
  | Op_I64ShrS => Some In_I64ShrS
  | Op_I64ShrU => Some In_I64ShrU
  | Op_I64Rotl => Some In_I64Rotl
  | Op_I64Rotr => Some In_I64Rotr
  | Op_F32Abs => Some In_F32Abs
  | Op_F32Neg => Some In_F32Neg
  | Op_F32Ceil => Some In_F32Ceil
  | Op_F32Floor => Some In_F32Floor
  | Op_F32Trunc => Some In_F32Trunc
  | Op_F32Nearest => Some In_F32Nearest
  | Op_F32Sqrt => Some In_F32Sqrt
  | Op_F32Add => Some In_F32Add
  | Op_F32Sub => Some In_F32Sub
  | Op_F32Mul => Some In_F32Mul
  | Op_F32Div => Some In_F32Div
  | Op_F32Min => Some In_F32Min
  | Op_F32Max => Some In_F32Max
  | Op_F32Copysign => Some In_F32Copysign
  | Op_F64Abs => Some In_F64Abs
  | Op_F64Neg => Some In_F64Neg
  | Op_F64Ceil => Some In_F64Ceil
  | Op_F64Floor => Some In_F64Floor
  | Op_F64Trunc => Some In_F64Trunc
  | Op_F64Nearest => Some In_F64Nearest
  | Op_F64Sqrt => Some In_F64Sqrt
  | Op_F64Add => Some In_F64Add
  | Op_F64Sub => Some In_F64Sub
  | Op_F64Mul => Some In_F64Mul
  | Op_F64Div => Some In_F64Div
  | Op_F64Min => Some In_F64Min
  | Op_F64Max => Some In_F64Max
  | Op_F64Copysign => Some In_F64Copysign
  | Op_I32WrapI64 => Some In_I32WrapI64
  | Op_I32TruncF32S => Some In_I32TruncF32S
  | Op_I32TruncF32U => Some In_I32TruncF32U
  | Op_I32TruncF64S => Some In_I32TruncF64S
  | Op_I32TruncF64U => Some In_I32TruncF64U
  | Op_I64ExtendI32S => Some In_I64ExtendI32S
  | Op_I64ExtendI32U => Some In_I64ExtendI32U
  | Op_I64TruncF32S => Some In_I64TruncF32S
  | Op_I64TruncF32U => Some In_I64TruncF32U
  | Op_I64TruncF64S => Some In_I64TruncF64S
  | Op_I64TruncF64U => Some In_I64TruncF64U
  | Op_F32ConvertI32S => Some In_F32ConvertI32S
  | Op_F32ConvertI32U => Some In_F32ConvertI32U
  | Op_F32ConvertI64S => Some In_F32ConvertI64S
  | Op_F32ConvertI64U => Some In_F32ConvertI64U
  | Op_F32DemoteF64 => Some In_F32DemoteF64
  | Op_F64ConvertI32S => Some In_F64ConvertI32S
  | Op_F64ConvertI32U => Some In_F64ConvertI32U
  | Op_F64ConvertI64S => Some In_F64ConvertI64S
  | Op_F64ConvertI64U => Some In_F64ConvertI64U
  | Op_F64PromoteF32 => Some In_F64PromoteF32
  | Op_I32ReinterpretF32 => Some In_I32ReinterpretF32
  | Op_I64ReinterpretF64 => Some In_I64ReinterpretF64
  | Op_F32ReinterpretI32 => Some In_F32ReinterpretI32
  | Op_F64ReinterpretI64 => Some In_F64ReinterpretI64
  | Op_I32Extend8S => Some In_I32Extend8S
  | Op_I32Extend16S => Some In_I32Extend16S
  | Op_I64Extend8S => Some In_I64Extend8S
  | Op_I64Extend16S => Some In_I64Extend16S
  | Op_I64Extend32S => Some In_I64Extend32S
  | Op_RefEq => Some In_RefEq
  | Op_StructNew struct_type_index => Some (In_StructNew struct_type_index)
  | Op_StructNewDefault struct_type_index => Some (In_StructNewDefault struct_type_index)
  | Op_StructGet struct_type_index field_index => Some (In_StructGet struct_type_index field_index)
  | Op_StructGetS struct_type_index field_index => Some (In_StructGetS struct_type_index field_index)
  | Op_StructGetU struct_type_index field_index => Some (In_StructGetU struct_type_index field_index)
  | Op_StructSet struct_type_index field_index => Some (In_StructSet struct_type_index field_index)
  | Op_ArrayNew array_type_index => Some (In_ArrayNew array_type_index)
  | Op_ArrayNewDefault array_type_index => Some (In_ArrayNewDefault array_type_index)
  | Op_ArrayNewFixed array_type_index array_size => Some (In_ArrayNewFixed array_type_index array_size)
  | Op_ArrayNewData array_type_index array_data_index => Some (In_ArrayNewData array_type_index array_data_index)
  | Op_ArrayNewElem array_type_index array_elem_index => Some (In_ArrayNewElem array_type_index array_elem_index)
  | Op_ArrayGet array_type_index => Some (In_ArrayGet array_type_index)
  | Op_ArrayGetS array_type_index => Some (In_ArrayGetS array_type_index)
  | Op_ArrayGetU array_type_index => Some (In_ArrayGetU array_type_index)
  | Op_ArraySet array_type_index => Some (In_ArraySet array_type_index)
  | Op_ArrayLen => Some In_ArrayLen
  | Op_ArrayFill array_type_index => Some (In_ArrayFill array_type_index)
  | Op_ArrayCopy array_type_index_dst array_type_index_src => Some (In_ArrayCopy array_type_index_dst array_type_index_src)
  | Op_ArrayInitData array_type_index array_data_index => Some (In_ArrayInitData array_type_index array_data_index)
  | Op_ArrayInitElem array_type_index array_elem_index => Some (In_ArrayInitElem array_type_index array_elem_index)
  | Op_RefTestNonNull hty => match c_heap hty with Some hty => Some (In_RefTestNonNull hty) | None => None end
  | Op_RefTestNullable hty => match c_heap hty with Some hty => Some (In_RefTestNullable hty) | None => None end
  | Op_RefCastNonNull hty => match c_heap hty with Some hty => Some (In_RefCastNonNull hty) | None => None end
  | Op_RefCastNullable hty => match c_heap hty with Some hty => Some (In_RefCastNullable hty) | None => None end
  | Op_BrOnCast relative_depth from_ref_type to_ref_type => match c_ref from_ref_type with Some from_ref_type => match c_ref to_ref_type with Some to_ref_type => Some (In_BrOnCast relative_depth from_ref_type to_ref_type) | None => None end | None => None end
  | Op_BrOnCastFail relative_depth from_ref_type to_ref_type => match c_ref from_ref_type with Some from_ref_type => match c_ref to_ref_type with Some to_ref_type => Some (In_BrOnCastFail relative_depth from_ref_type to_ref_type) | None => None end | None => None end
  | Op_AnyConvertExtern => Some In_AnyConvertExtern
  | Op_ExternConvertAny => Some In_ExternConvertAny
  | Op_RefI31 => Some In_RefI31
  | Op_I31GetS => Some In_I31GetS
  | Op_I31GetU => Some In_I31GetU
  | Op_StructNewDesc struct_type_index => Some (In_StructNewDesc struct_type_index)
  | Op_StructNewDefaultDesc struct_type_index => Some (In_StructNewDefaultDesc struct_type_index)
  | Op_RefGetDesc type_index => Some (In_RefGetDesc type_index)
  | Op_RefCastDescEqNonNull hty => match c_heap hty with Some hty => Some (In_RefCastDescEqNonNull hty) | None => None end
  | Op_RefCastDescEqNullable hty => match c_heap hty with Some hty => Some (In_RefCastDescEqNullable hty) | None => None end
  | Op_BrOnCastDescEq relative_depth from_ref_type to_ref_type => match c_ref from_ref_type with Some from_ref_type => match c_ref to_ref_type with Some to_ref_type => Some (In_BrOnCastDescEq relative_depth from_ref_type to_ref_type) | None => None end | None => None end
  | Op_BrOnCastDescEqFail relative_depth from_ref_type to_ref_type => match c_ref from_ref_type with Some from_ref_type => match c_ref to_ref_type with Some to_ref_type => Some (In_BrOnCastDescEqFail relative_depth from_ref_type to_ref_type) | None => None end | None => None end
  | Op_I32TruncSatF32S => Some In_I32TruncSatF32S
  | Op_I32TruncSatF32U => Some In_I32TruncSatF32U
  | Op_I32TruncSatF64S => Some In_I32TruncSatF64S
  | Op_I32TruncSatF64U => Some In_I32TruncSatF64U
  | Op_I64TruncSatF32S => Some In_I64TruncSatF32S
  | Op_I64TruncSatF32U => Some In_I64TruncSatF32U
  | Op_I64TruncSatF64S => Some In_I64TruncSatF64S
  | Op_I64TruncSatF64U => Some In_I64TruncSatF64U
  | Op_MemoryInit data_index mem => Some (In_MemoryInit mem data_index)
  | Op_DataDrop data_index => Some (In_DataDrop data_index)
  | Op_MemoryCopy dst_mem src_mem => Some (In_MemoryCopy src_mem dst_mem)
  | Op_MemoryFill mem => Some (In_MemoryFill mem)
  | Op_TableInit elem_index table => Some (In_TableInit elem_index table)
  | Op_ElemDrop elem_index => Some (In_ElemDrop elem_index)
  | Op_TableCopy dst_table src_table => Some (In_TableCopy src_table dst_table)
  | Op_TypedSelect ty => match c_val ty with Some ty => Some (In_TypedSelect ty) | None => None end
  | Op_TypedSelectMulti tys => match c_vals tys with Some tys => Some (In_TypedSelectMulti tys) | None => None end
  | Op_RefNull hty => match c_heap hty with Some hty => Some (In_RefNull hty) | None => None end
  | Op_RefIsNull => Some In_RefIsNull
  | Op_RefFunc function_index => Some (In_RefFunc function_index)
  | Op_TableFill table => Some (In_TableFill table)
  | Op_TableGet table => Some (In_TableGet table)
  | Op_TableSet table => Some (In_TableSet table)
  | Op_TableGrow table => Some (In_TableGrow table)
  | Op_TableSize table => Some (In_TableSize table)
  | Op_ReturnCall function_index => Some (In_ReturnCall function_index)
  | Op_ReturnCallIndirect type_index table_index => Some (In_ReturnCallIndirect type_index table_index)
  | Op_MemoryDiscard mem => Some (In_MemoryDiscard mem)
  | Op_MemoryAtomicNotify memarg => match c_memarg memarg with Some memarg => Some (In_MemoryAtomicNotify memarg) | None => None end
  | Op_MemoryAtomicWait32 memarg => match c_memarg memarg with Some memarg => Some (In_MemoryAtomicWait32 memarg) | None => None end
  | Op_MemoryAtomicWait64 memarg => match c_memarg memarg with Some memarg => Some (In_MemoryAtomicWait64 memarg) | None => None end
  | Op_AtomicFence => Some In_AtomicFence
  | Op_I32AtomicLoad memarg => match c_memarg memarg with Some memarg => Some (In_I32AtomicLoad memarg) | None => None end
  | Op_I64AtomicLoad memarg => match c_memarg memarg with Some memarg => Some (In_I64AtomicLoad memarg) | None => None end
  | Op_I32AtomicLoad8U memarg => match c_memarg memarg with Some memarg => Some (In_I32AtomicLoad8U memarg) | None => None end
  | Op_I32AtomicLoad16U memarg => match c_memarg memarg with Some memarg => Some (In_I32AtomicLoad16U memarg) | None => None end
  | Op_I64AtomicLoad8U memarg => match c_memarg memarg with Some memarg => Some (In_I64AtomicLoad8U memarg) | None => None end
  | Op_I64AtomicLoad16U memarg => match c_memarg memarg with Some memarg => Some (In_I64AtomicLoad16U memarg) | None => None end
  | Op_I64AtomicLoad32U memarg => match c_memarg memarg with Some memarg => Some (In_I64AtomicLoad32U memarg) | None => None end
  | Op_I32AtomicStore memarg => match c_memarg memarg with Some memarg => Some (In_I32AtomicStore memarg) | None => None end
  | Op_I64AtomicStore memarg => match c_memarg memarg with Some memarg => Some (In_I64AtomicStore memarg) | None => None end
  | Op_I32AtomicStore8 memarg => match c_memarg memarg with Some memarg => Some (In_I32AtomicStore8 memarg) | None => None end
  | Op_I32AtomicStore16 memarg => match c_memarg memarg with Some memarg => Some (In_I32AtomicStore16 memarg) | None => None end
  | Op_I64AtomicStore8 memarg => match c_memarg memarg with Some memarg => Some (In_I64AtomicStore8 memarg) | None => None end
  | Op_I64AtomicStore16 memarg => match c_memarg memarg with Some memarg => Some (In_I64AtomicStore16 memarg) | None => None end
  | Op_I64AtomicStore32 memarg => match c_memarg memarg with Some memarg => Some (In_I64AtomicStore32 memarg) | None => None end
  | Op_I32AtomicRmwAdd memarg => match c_memarg memarg with Some memarg => Some (In_I32AtomicRmwAdd memarg) | None => None end
  | Op_I64AtomicRmwAdd memarg => match c_memarg memarg with Some memarg => Some (In_I64AtomicRmwAdd memarg) | None => None end
  | Op_I32AtomicRmw8AddU memarg => match c_memarg memarg with Some memarg => Some (In_I32AtomicRmw8AddU memarg) | None => None end
  | Op_I32AtomicRmw16AddU memarg => match c_memarg memarg with Some memarg => Some (In_I32AtomicRmw16AddU memarg) | None => None end
  | Op_I64AtomicRmw8AddU memarg => match c_memarg memarg with Some memarg => Some (In_I64AtomicRmw8AddU memarg) | None => None end
  | Op_I64AtomicRmw16AddU memarg => match c_memarg memarg with Some memarg => Some (In_I64AtomicRmw16AddU memarg) | None => None end
  | Op_I64AtomicRmw32AddU memarg => match c_memarg memarg with Some memarg => Some (In_I64AtomicRmw32AddU memarg) | None => None end
  | Op_I32AtomicRmwSub memarg => match c_memarg memarg with Some memarg => Some (In_I32AtomicRmwSub memarg) | None => None end
  | Op_I64AtomicRmwSub memarg => match c_memarg memarg with Some memarg => Some (In_I64AtomicRmwSub memarg) | None => None end
  | Op_I32AtomicRmw8SubU memarg => match c_memarg memarg with Some memarg => Some (In_I32AtomicRmw8SubU memarg) | None => None end
  | Op_I32AtomicRmw16SubU memarg => match c_memarg memarg with Some memarg => Some (In_I32AtomicRmw16SubU memarg) | None => None end
  | Op_I64AtomicRmw8SubU memarg => match c_memarg memarg with Some memarg => Some (In_I64AtomicRmw8SubU memarg) | None => None end
  | Op_I64AtomicRmw16SubU memarg => match c_memarg memarg with Some memarg => Some (In_I64AtomicRmw16SubU memarg) | None => None end
  | Op_I64AtomicRmw32SubU memarg => match c_memarg memarg with Some memarg => Some (In_I64AtomicRmw32SubU memarg) | None => None end
  | Op_I32AtomicRmwAnd memarg => match c_memarg memarg with Some memarg => Some (In_I32AtomicRmwAnd memarg) | None => None end
  | Op_I64AtomicRmwAnd memarg => match c_memarg memarg with Some memarg => Some (In_I64AtomicRmwAnd memarg) | None => None end
  | Op_I32AtomicRmw8AndU memarg => match c_memarg memarg with Some memarg => Some (In_I32AtomicRmw8AndU memarg) | None => None end
  | Op_I32AtomicRmw16AndU memarg => match c_memarg memarg with Some memarg => Some (In_I32AtomicRmw16AndU memarg) | None => None end
  | Op_I64AtomicRmw8AndU memarg => match c_memarg memarg with Some memarg => Some (In_I64AtomicRmw8AndU memarg) | None => None end
  | Op_I64AtomicRmw16AndU memarg => match c_memarg memarg with Some memarg => Some (In_I64AtomicRmw16AndU memarg) | None => None end
  | Op_I64AtomicRmw32AndU memarg => match c_memarg memarg with Some memarg => Some (In_I64AtomicRmw32AndU memarg) | None => None end
  | Op_I32AtomicRmwOr memarg => match c_memarg memarg with Some memarg => Some (In_I32AtomicRmwOr memarg) | None => None end
  | Op_I64AtomicRmwOr memarg => match c_memarg memarg with Some memarg => Some (In_I64AtomicRmwOr memarg) | None => None end
  | Op_I32AtomicRmw8OrU memarg => match c_memarg memarg with Some memarg => Some (In_I32AtomicRmw8OrU memarg) | None => None end
  | Op_I32AtomicRmw16OrU memarg => match c_memarg memarg with Some memarg => Some (In_I32AtomicRmw16OrU memarg) | None => None end
  | Op_I64AtomicRmw8OrU memarg => match c_memarg memarg with Some memarg => Some (In_I64AtomicRmw8OrU memarg) | None => None end
  | Op_I64AtomicRmw16OrU memarg => match c_memarg memarg with Some memarg => Some (In_I64AtomicRmw16OrU memarg) | None => None end
  | Op_I64AtomicRmw32OrU memarg => match c_memarg memarg with Some memarg => Some (In_I64AtomicRmw32OrU memarg) | None => None end
  | Op_I32AtomicRmwXor memarg => match c_memarg memarg with Some memarg => Some (In_I32AtomicRmwXor memarg) | None => None end
  | Op_I64AtomicRmwXor memarg => match c_memarg memarg with Some memarg => Some (In_I64AtomicRmwXor memarg) | None => None end
  | Op_I32AtomicRmw8XorU memarg => match c_memarg memarg with Some memarg => Some (In_I32AtomicRmw8XorU memarg) | None => None end
  | Op_I32AtomicRmw16XorU memarg => match c_memarg memarg with Some memarg => Some (In_I32AtomicRmw16XorU memarg) | None => None end
  | Op_I64AtomicRmw8XorU memarg => match c_memarg memarg with Some memarg => Some (In_I64AtomicRmw8XorU memarg) | None => None end
  | Op_I64AtomicRmw16XorU memarg => match c_memarg memarg with Some memarg => Some (In_I64AtomicRmw16XorU memarg) | None => None end
  | Op_I64AtomicRmw32XorU memarg => match c_memarg memarg with Some memarg => Some (In_I64AtomicRmw32XorU memarg) | None => None end
  | Op_I32AtomicRmwXchg memarg => match c_memarg memarg with Some memarg => Some (In_I32AtomicRmwXchg memarg) | None => None end
  | Op_I64AtomicRmwXchg memarg => match c_memarg memarg with Some memarg => Some (In_I64AtomicRmwXchg memarg) | None => None end
  | Op_I32AtomicRmw8XchgU memarg => match c_memarg memarg with Some memarg => Some (In_I32AtomicRmw8XchgU memarg) | None => None end
  | Op_I32AtomicRmw16XchgU memarg => match c_memarg memarg with Some memarg => Some (In_I32AtomicRmw16XchgU memarg) | None => None end
  | Op_I64AtomicRmw8XchgU memarg => match c_memarg memarg with Some memarg => Some (In_I64AtomicRmw8XchgU memarg) | None => None end
  | Op_I64AtomicRmw16XchgU memarg => match c_memarg memarg with Some memarg => Some (In_I64AtomicRmw16XchgU memarg) | None => None end
  | Op_I64AtomicRmw32XchgU memarg => match c_memarg memarg with Some memarg => Some (In_I64AtomicRmw32XchgU memarg) | None => None end
  | Op_I32AtomicRmwCmpxchg memarg => match c_memarg memarg with Some memarg => Some (In_I32AtomicRmwCmpxchg memarg) | None => None end
  | Op_I64AtomicRmwCmpxchg memarg => match c_memarg memarg with Some memarg => Some (In_I64AtomicRmwCmpxchg memarg) | None => None end
  | Op_I32AtomicRmw8CmpxchgU memarg => match c_memarg memarg with Some memarg => Some (In_I32AtomicRmw8CmpxchgU memarg) | None => None end
  | Op_I32AtomicRmw16CmpxchgU memarg => match c_memarg memarg with Some memarg => Some (In_I32AtomicRmw16CmpxchgU memarg) | None => None end
  | Op_I64AtomicRmw8CmpxchgU memarg => match c_memarg memarg with Some memarg => Some (In_I64AtomicRmw8CmpxchgU memarg) | None => None end
  | Op_I64AtomicRmw16CmpxchgU memarg => match c_memarg memarg with Some memarg => Some (In_I64AtomicRmw16CmpxchgU memarg) | None => None end
  | Op_I64AtomicRmw32CmpxchgU memarg => match c_memarg memarg with Some memarg => Some (In_I64AtomicRmw32CmpxchgU memarg) | None => None end
  | Op_V128Load memarg => match c_memarg memarg with Some memarg => Some (In_V128Load memarg) | None => None end
  | Op_V128Load8x8S memarg => match c_memarg memarg with Some memarg => Some (In_V128Load8x8S memarg) | None => None end
  | Op_V128Load8x8U memarg => match c_memarg memarg with Some memarg => Some (In_V128Load8x8U memarg) | None => None end
  | Op_V128Load16x4S memarg => match c_memarg memarg with Some memarg => Some (In_V128Load16x4S memarg) | None => None end
  | Op_V128Load16x4U memarg => match c_memarg memarg with Some memarg => Some (In_V128Load16x4U memarg) | None => None end
  | Op_V128Load32x2S memarg => match c_memarg memarg with Some memarg => Some (In_V128Load32x2S memarg) | None => None end
  | Op_V128Load32x2U memarg => match c_memarg memarg with Some memarg => Some (In_V128Load32x2U memarg) | None => None end
  | Op_V128Load8Splat memarg => match c_memarg memarg with Some memarg => Some (In_V128Load8Splat memarg) | None => None end
  | Op_V128Load16Splat memarg => match c_memarg memarg with Some memarg => Some (In_V128Load16Splat memarg) | None => None end
  | Op_V128Load32Splat memarg => match c_memarg memarg with Some memarg => Some (In_V128Load32Splat memarg) | None => None end
  | Op_V128Load64Splat memarg => match c_memarg memarg with Some memarg => Some (In_V128Load64Splat memarg) | None => None end
  | Op_V128Load32Zero memarg => match c_memarg memarg with Some memarg => Some (In_V128Load32Zero memarg) | None => None end
  | Op_V128Load64Zero memarg => match c_memarg memarg with Some memarg => Some (In_V128Load64Zero memarg) | None => None end
  | Op_V128Store memarg => match c_memarg memarg with Some memarg => Some (In_V128Store memarg) | None => None end
  | Op_V128Load8Lane memarg lane => match c_memarg memarg with Some memarg => Some (In_V128Load8Lane memarg lane) | None => None end
  | Op_V128Load16Lane memarg lane => match c_memarg memarg with Some memarg => Some (In_V128Load16Lane memarg lane) | None => None end
  | Op_V128Load32Lane memarg lane => match c_memarg memarg with Some memarg => Some (In_V128Load32Lane memarg lane) | None => None end
  | Op_V128Load64Lane memarg lane => match c_memarg memarg with Some memarg => Some (In_V128Load64Lane memarg lane) | None => None end
  | Op_V128Store8Lane memarg lane => match c_memarg memarg with Some memarg => Some (In_V128Store8Lane memarg lane) | None => None end
  | Op_V128Store16Lane memarg lane => match c_memarg memarg with Some memarg => Some (In_V128Store16Lane memarg lane) | None => None end
  | Op_V128Store32Lane memarg lane => match c_memarg memarg with Some memarg => Some (In_V128Store32Lane memarg lane) | None => None end
  | Op_V128Store64Lane memarg lane => match c_memarg memarg with Some memarg => Some (In_V128Store64Lane memarg lane) | None => None end
  | Op_V128Const value => match c_v128 value with Some value => Some (In_V128Const value) | None => None end
  | Op_I8x16Shuffle lanes => Some (In_I8x16Shuffle lanes)
  | Op_I8x16ExtractLaneS lane => Some (In_I8x16ExtractLaneS lane)
  | Op_I8x16ExtractLaneU lane => Some (In_I8x16ExtractLaneU lane)
  | Op_I8x16ReplaceLane lane => Some (In_I8x16ReplaceLane lane)
  | Op_I16x8ExtractLaneS lane => Some (In_I16x8ExtractLaneS lane)
  | Op_I16x8ExtractLaneU lane => Some (In_I16x8ExtractLaneU lane)
  | Op_I16x8ReplaceLane lane => Some (In_I16x8ReplaceLane lane)
  | Op_I32x4ExtractLane lane => Some (In_I32x4ExtractLane lane)
  | Op_I32x4ReplaceLane lane => Some (In_I32x4ReplaceLane lane)
  | Op_I64x2ExtractLane lane => Some (In_I64x2ExtractLane lane)
  | Op_I64x2ReplaceLane lane => Some (In_I64x2ReplaceLane lane)
  | Op_F32x4ExtractLane lane => Some (In_F32x4ExtractLane lane)
  | Op_F32x4ReplaceLane lane => Some (In_F32x4ReplaceLane lane)
  | Op_F64x2ExtractLane lane => Some (In_F64x2ExtractLane lane)
  | Op_F64x2ReplaceLane lane => Some (In_F64x2ReplaceLane lane)
  | Op_I8x16Swizzle => Some In_I8x16Swizzle
  | Op_I8x16Splat => Some In_I8x16Splat
  | Op_I16x8Splat => Some In_I16x8Splat
  | Op_I32x4Splat => Some In_I32x4Splat
  | Op_I64x2Splat => Some In_I64x2Splat
  | Op_F32x4Splat => Some In_F32x4Splat
  | Op_F64x2Splat => Some In_F64x2Splat
  | Op_I8x16Eq => Some In_I8x16Eq
  | Op_I8x16Ne => Some In_I8x16Ne
  | Op_I8x16LtS => Some In_I8x16LtS
  | Op_I8x16LtU => Some In_I8x16LtU
  | Op_I8x16GtS => Some In_I8x16GtS
  | Op_I8x16GtU => Some In_I8x16GtU
  | Op_I8x16LeS => Some In_I8x16LeS
  | Op_I8x16LeU => Some In_I8x16LeU
  | Op_I8x16GeS => Some In_I8x16GeS
  | Op_I8x16GeU => Some In_I8x16GeU
  | Op_I16x8Eq => Some In_I16x8Eq
  | Op_I16x8Ne => Some In_I16x8Ne
  | Op_I16x8LtS => Some In_I16x8LtS
  | Op_I16x8LtU => Some In_I16x8LtU
  | Op_I16x8GtS => Some In_I16x8GtS
  | Op_I16x8GtU => Some In_I16x8GtU
  | Op_I16x8LeS => Some In_I16x8LeS
  | Op_I16x8LeU => Some In_I16x8LeU
  | Op_I16x8GeS => Some In_I16x8GeS
  | Op_I16x8GeU => Some In_I16x8GeU
  | Op_I32x4Eq => Some In_I32x4Eq
  | Op_I32x4Ne => Some In_I32x4Ne
  | Op_I32x4LtS => Some In_I32x4LtS
  | Op_I32x4LtU => Some In_I32x4LtU
  | Op_I32x4GtS => Some In_I32x4GtS
  | Op_I32x4GtU => Some In_I32x4GtU
  | Op_I32x4LeS => Some In_I32x4LeS
  | Op_I32x4LeU => Some In_I32x4LeU
  | Op_I32x4GeS => Some In_I32x4GeS
  | Op_I32x4GeU => Some In_I32x4GeU
  | Op_I64x2Eq => Some In_I64x2Eq
  | Op_I64x2Ne => Some In_I64x2Ne
  | Op_I64x2LtS => Some In_I64x2LtS
  | Op_I64x2GtS => Some In_I64x2GtS
  | Op_I64x2LeS => Some In_I64x2LeS
  | Op_I64x2GeS => Some In_I64x2GeS
  | Op_F32x4Eq => Some In_F32x4Eq
  | Op_F32x4Ne => Some In_F32x4Ne
  | Op_F32x4Lt => Some In_F32x4Lt
  | Op_F32x4Gt => Some In_F32x4Gt
  | Op_F32x4Le => Some In_F32x4Le
  | Op_F32x4Ge => Some In_F32x4Ge
  | Op_F64x2Eq => Some In_F64x2Eq
  | Op_F64x2Ne => Some In_F64x2Ne
  | Op_F64x2Lt => Some In_F64x2Lt
  | Op_F64x2Gt => Some In_F64x2Gt
  | Op_F64x2Le => Some In_F64x2Le
  | Op_F64x2Ge => Some In_F64x2Ge
  | Op_V128Not => Some In_V128Not
  | Op_V128And => Some In_V128And
  | Op_V128AndNot => Some In_V128AndNot
  | Op_V128Or => Some In_V128Or
  | Op_V128Xor => Some In_V128Xor
  | Op_V128Bitselect => Some In_V128Bitselect
  | Op_V128AnyTrue => Some In_V128AnyTrue
  | Op_I8x16Abs => Some In_I8x16Abs
  | Op_I8x16Neg => Some In_I8x16Neg
  | Op_I8x16Popcnt => Some In_I8x16Popcnt
  | Op_I8x16AllTrue => Some In_I8x16AllTrue
  | Op_I8x16Bitmask => Some In_I8x16Bitmask
  | Op_I8x16NarrowI16x8S => Some In_I8x16NarrowI16x8S
  | Op_I8x16NarrowI16x8U => Some In_I8x16NarrowI16x8U
  | Op_I8x16Shl => Some In_I8x16Shl
  | Op_I8x16ShrS => Some In_I8x16ShrS
  | Op_I8x16ShrU => Some In_I8x16ShrU
  | Op_I8x16Add => Some In_I8x16Add
  | Op_I8x16AddSatS => Some In_I8x16AddSatS
  | Op_I8x16AddSatU => Some In_I8x16AddSatU
  | Op_I8x16Sub => Some In_I8x16Sub
  | Op_I8x16SubSatS => Some In_I8x16SubSatS
  | Op_I8x16SubSatU => Some In_I8x16SubSatU
  | Op_I8x16MinS => Some In_I8x16MinS
  | Op_I8x16MinU => Some In_I8x16MinU
  | Op_I8x16MaxS => Some In_I8x16MaxS
  | Op_I8x16MaxU => Some In_I8x16MaxU
  | Op_I8x16AvgrU => Some In_I8x16AvgrU
  | Op_I16x8ExtAddPairwiseI8x16S => Some In_I16x8ExtAddPairwiseI8x16S
  | Op_I16x8ExtAddPairwiseI8x16U => Some In_I16x8ExtAddPairwiseI8x16U
  | Op_I16x8Abs => Some In_I16x8Abs
  | Op_I16x8Neg => Some In_I16x8Neg
  | Op_I16x8Q15MulrSatS => Some In_I16x8Q15MulrSatS
  | Op_I16x8AllTrue => Some In_I16x8AllTrue
  | Op_I16x8Bitmask => Some In_I16x8Bitmask
  | Op_I16x8NarrowI32x4S => Some In_I16x8NarrowI32x4S
  | Op_I16x8NarrowI32x4U => Some In_I16x8NarrowI32x4U
  | Op_I16x8ExtendLowI8x16S => Some In_I16x8ExtendLowI8x16S
  | Op_I16x8ExtendHighI8x16S => Some In_I16x8ExtendHighI8x16S
  | Op_I16x8ExtendLowI8x16U => Some In_I16x8ExtendLowI8x16U
  | Op_I16x8ExtendHighI8x16U => Some In_I16x8ExtendHighI8x16U
  | Op_I16x8Shl => Some In_I16x8Shl
  | Op_I16x8ShrS => Some In_I16x8ShrS
  | Op_I16x8ShrU => Some In_I16x8ShrU
  | Op_I16x8Add => Some In_I16x8Add
  | Op_I16x8AddSatS => Some In_I16x8AddSatS
  | Op_I16x8AddSatU => Some In_I16x8AddSatU
  | Op_I16x8Sub => Some In_I16x8Sub
  | Op_I16x8SubSatS => Some In_I16x8SubSatS
  | Op_I16x8SubSatU => Some In_I16x8SubSatU
  | Op_I16x8Mul => Some In_I16x8Mul
  | Op_I16x8MinS => Some In_I16x8MinS
  | Op_I16x8MinU => Some In_I16x8MinU
  | Op_I16x8MaxS => Some In_I16x8MaxS
  | Op_I16x8MaxU => Some In_I16x8MaxU
  | Op_I16x8AvgrU => Some In_I16x8AvgrU
  | Op_I16x8ExtMulLowI8x16S => Some In_I16x8ExtMulLowI8x16S
  | Op_I16x8ExtMulHighI8x16S => Some In_I16x8ExtMulHighI8x16S
  | Op_I16x8ExtMulLowI8x16U => Some In_I16x8ExtMulLowI8x16U
  | Op_I16x8ExtMulHighI8x16U => Some In_I16x8ExtMulHighI8x16U
  | Op_I32x4ExtAddPairwiseI16x8S => Some In_I32x4ExtAddPairwiseI16x8S
  | Op_I32x4ExtAddPairwiseI16x8U => Some In_I32x4ExtAddPairwiseI16x8U
  | Op_I32x4Abs => Some In_I32x4Abs
  | Op_I32x4Neg => Some In_I32x4Neg
  | Op_I32x4AllTrue => Some In_I32x4AllTrue
  | Op_I32x4Bitmask => Some In_I32x4Bitmask
  | Op_I32x4ExtendLowI16x8S => Some In_I32x4ExtendLowI16x8S
  | Op_I32x4ExtendHighI16x8S => Some In_I32x4ExtendHighI16x8S
  | Op_I32x4ExtendLowI16x8U => Some In_I32x4ExtendLowI16x8U
  | Op_I32x4ExtendHighI16x8U => Some In_I32x4ExtendHighI16x8U
  | Op_I32x4Shl => Some In_I32x4Shl
  | Op_I32x4ShrS => Some In_I32x4ShrS
  | Op_I32x4ShrU => Some In_I32x4ShrU
  | Op_I32x4Add => Some In_I32x4Add
  | Op_I32x4Sub => Some In_I32x4Sub
  | Op_I32x4Mul => Some In_I32x4Mul
  | Op_I32x4MinS => Some In_I32x4MinS
  | Op_I32x4MinU => Some In_I32x4MinU
  | Op_I32x4MaxS => Some In_I32x4MaxS
  | Op_I32x4MaxU => Some In_I32x4MaxU
  | Op_I32x4DotI16x8S => Some In_I32x4DotI16x8S
  | Op_I32x4ExtMulLowI16x8S => Some In_I32x4ExtMulLowI16x8S
  | Op_I32x4ExtMulHighI16x8S => Some In_I32x4ExtMulHighI16x8S
  | Op_I32x4ExtMulLowI16x8U => Some In_I32x4ExtMulLowI16x8U
  | Op_I32x4ExtMulHighI16x8U => Some In_I32x4ExtMulHighI16x8U
  | Op_I64x2Abs => Some In_I64x2Abs
  | Op_I64x2Neg => Some In_I64x2Neg
  | Op_I64x2AllTrue => Some In_I64x2AllTrue
  | Op_I64x2Bitmask => Some In_I64x2Bitmask
  | Op_I64x2ExtendLowI32x4S => Some In_I64x2ExtendLowI32x4S
  | Op_I64x2ExtendHighI32x4S => Some In_I64x2ExtendHighI32x4S
  | Op_I64x2ExtendLowI32x4U => Some In_I64x2ExtendLowI32x4U
  | Op_I64x2ExtendHighI32x4U => Some In_I64x2ExtendHighI32x4U
  | Op_I64x2Shl => Some In_I64x2Shl
  | Op_I64x2ShrS => Some In_I64x2ShrS
  | Op_I64x2ShrU => Some In_I64x2ShrU
  | Op_I64x2Add => Some In_I64x2Add
  | Op_I64x2Sub => Some In_I64x2Sub
  | Op_I64x2Mul => Some In_I64x2Mul
  | Op_I64x2ExtMulLowI32x4S => Some In_I64x2ExtMulLowI32x4S
  | Op_I64x2ExtMulHighI32x4S => Some In_I64x2ExtMulHighI32x4S
  | Op_I64x2ExtMulLowI32x4U => Some In_I64x2ExtMulLowI32x4U
  | Op_I64x2ExtMulHighI32x4U => Some In_I64x2ExtMulHighI32x4U
  | Op_F32x4Ceil => Some In_F32x4Ceil
  | Op_F32x4Floor => Some In_F32x4Floor
  | Op_F32x4Trunc => Some In_F32x4Trunc
  | Op_F32x4Nearest => Some In_F32x4Nearest
  | Op_F32x4Abs => Some In_F32x4Abs
  | Op_F32x4Neg => Some In_F32x4Neg
  | Op_F32x4Sqrt => Some In_F32x4Sqrt
  | Op_F32x4Add => Some In_F32x4Add
  | Op_F32x4Sub => Some In_F32x4Sub
  | Op_F32x4Mul => Some In_F32x4Mul
  | Op_F32x4Div => Some In_F32x4Div
  | Op_F32x4Min => Some In_F32x4Min
  | Op_F32x4Max => Some In_F32x4Max
  | Op_F32x4PMin => Some In_F32x4PMin
  | Op_F32x4PMax => Some In_F32x4PMax
  | Op_F64x2Ceil => Some In_F64x2Ceil
  | Op_F64x2Floor => Some In_F64x2Floor
  | Op_F64x2Trunc => Some In_F64x2Trunc
  | Op_F64x2Nearest => Some In_F64x2Nearest
  | Op_F64x2Abs => Some In_F64x2Abs
  | Op_F64x2Neg => Some In_F64x2Neg
  | Op_F64x2Sqrt => Some In_F64x2Sqrt
  | Op_F64x2Add => Some In_F64x2Add
  | Op_F64x2Sub => Some In_F64x2Sub
  | Op_F64x2Mul => Some In_F64x2Mul
  | Op_F64x2Div => Some In_F64x2Div
  | Op_F64x2Min => Some In_F64x2Min
  | Op_F64x2Max => Some In_F64x2Max
  | Op_F64x2PMin => Some In_F64x2PMin
  | Op_F64x2PMax => Some In_F64x2PMax
  | Op_I32x4TruncSatF32x4S => Some In_I32x4TruncSatF32x4S
  | Op_I32x4TruncSatF32x4U => Some In_I32x4TruncSatF32x4U
  | Op_F32x4ConvertI32x4S => Some In_F32x4ConvertI32x4S
  | Op_F32x4ConvertI32x4U => Some In_F32x4ConvertI32x4U
  | Op_I32x4TruncSatF64x2SZero => Some In_I32x4TruncSatF64x2SZero
  | Op_I32x4TruncSatF64x2UZero => Some In_I32x4TruncSatF64x2UZero
  | Op_F64x2ConvertLowI32x4S => Some In_F64x2ConvertLowI32x4S
  | Op_F64x2ConvertLowI32x4U => Some In_F64x2ConvertLowI32x4U
  | Op_F32x4DemoteF64x2Zero => Some In_F32x4DemoteF64x2Zero
  | Op_F64x2PromoteLowF32x4 => Some In_F64x2PromoteLowF32x4
  | Op_I8x16RelaxedSwizzle => Some In_I8x16RelaxedSwizzle
  | Op_I32x4RelaxedTruncF32x4S => Some In_I32x4RelaxedTruncF32x4S
  | Op_I32x4RelaxedTruncF32x4U => Some In_I32x4RelaxedTruncF32x4U
  | Op_I32x4RelaxedTruncF64x2SZero => Some In_I32x4RelaxedTruncF64x2SZero
  | Op_I32x4RelaxedTruncF64x2UZero => Some In_I32x4RelaxedTruncF64x2UZero
  | Op_F32x4RelaxedMadd => Some In_F32x4RelaxedMadd
  | Op_F32x4RelaxedNmadd => Some In_F32x4RelaxedNmadd
  | Op_F64x2RelaxedMadd => Some In_F64x2RelaxedMadd
  | Op_F64x2RelaxedNmadd => Some In_F64x2RelaxedNmadd
  | Op_I8x16RelaxedLaneselect => Some In_I8x16RelaxedLaneselect
  | Op_I16x8RelaxedLaneselect => Some In_I16x8RelaxedLaneselect
  | Op_I32x4RelaxedLaneselect => Some In_I32x4RelaxedLaneselect
  | Op_I64x2RelaxedLaneselect => Some In_I64x2RelaxedLaneselect
  | Op_F32x4RelaxedMin => Some In_F32x4RelaxedMin
  | Op_F32x4RelaxedMax => Some In_F32x4RelaxedMax
  | Op_F64x2RelaxedMin => Some In_F64x2RelaxedMin
  | Op_F64x2RelaxedMax => Some In_F64x2RelaxedMax
  | Op_I16x8RelaxedQ15mulrS => Some In_I16x8RelaxedQ15mulrS
  | Op_I16x8RelaxedDotI8x16I7x16S => Some In_I16x8RelaxedDotI8x16I7x16S
  | Op_I32x4RelaxedDotI8x16I7x16AddS => Some In_I32x4RelaxedDotI8x16I7x16AddS
  | Op_TryTable try_table => match c_try_table try_table with Some (a, b) => Some (In_TryTable a b) | None => None end
  | Op_Throw tag_index => Some (In_Throw tag_index)
  | Op_ThrowRef => Some In_ThrowRef
  | Op_Try blockty => match c_block blockty with Some blockty => Some (In_Try blockty) | None => None end
  | Op_Catch tag_index => Some (In_Catch tag_index)
  | Op_Rethrow relative_depth => Some (In_Rethrow relative_depth)
  | Op_Delegate relative_depth => Some (In_Delegate relative_depth)
  | Op_CatchAll => Some In_CatchAll
  | Op_GlobalAtomicGet ordering global_index => match c_ordering ordering with Some ordering => Some (In_GlobalAtomicGet ordering global_index) | None => None end
  | Op_GlobalAtomicSet ordering global_index => match c_ordering ordering with Some ordering => Some (In_GlobalAtomicSet ordering global_index) | None => None end
  | Op_GlobalAtomicRmwAdd ordering global_index => match c_ordering ordering with Some ordering => Some (In_GlobalAtomicRmwAdd ordering global_index) | None => None end
  | Op_GlobalAtomicRmwSub ordering global_index => match c_ordering ordering with Some ordering => Some (In_GlobalAtomicRmwSub ordering global_index) | None => None end
  | Op_GlobalAtomicRmwAnd ordering global_index => match c_ordering ordering with Some ordering => Some (In_GlobalAtomicRmwAnd ordering global_index) | None => None end
  | Op_GlobalAtomicRmwOr ordering global_index => match c_ordering ordering with Some ordering => Some (In_GlobalAtomicRmwOr ordering global_index) | None => None end
  | Op_GlobalAtomicRmwXor ordering global_index => match c_ordering ordering with Some ordering => Some (In_GlobalAtomicRmwXor ordering global_index) | None => None end
  | Op_GlobalAtomicRmwXchg ordering global_index => match c_ordering ordering with Some ordering => Some (In_GlobalAtomicRmwXchg ordering global_index) | None => None end
  | Op_GlobalAtomicRmwCmpxchg ordering global_index => match c_ordering ordering with Some ordering => Some (In_GlobalAtomicRmwCmpxchg ordering global_index) | None => None end
  | Op_TableAtomicGet ordering table_index => match c_ordering ordering with Some ordering => Some (In_TableAtomicGet ordering table_index) | None => None end
  | Op_TableAtomicSet ordering table_index => match c_ordering ordering with Some ordering => Some (In_TableAtomicSet ordering table_index) | None => None end
  | Op_TableAtomicRmwXchg ordering table_index => match c_ordering ordering with Some ordering => Some (In_TableAtomicRmwXchg ordering table_index) | None => None end
  | Op_TableAtomicRmwCmpxchg ordering table_index => match c_ordering ordering with Some ordering => Some (In_TableAtomicRmwCmpxchg ordering table_index) | None => None end
  | Op_StructAtomicGet ordering struct_type_index field_index => match c_ordering ordering with Some ordering => Some (In_StructAtomicGet ordering struct_type_index field_index) | None => None end
  | Op_StructAtomicGetS ordering struct_type_index field_index => match c_ordering ordering with Some ordering => Some (In_StructAtomicGetS ordering struct_type_index field_index) | None => None end
  | Op_StructAtomicGetU ordering struct_type_index field_index => match c_ordering ordering with Some ordering => Some (In_StructAtomicGetU ordering struct_type_index field_index) | None => None end
  | Op_StructAtomicSet ordering struct_type_index field_index => match c_ordering ordering with Some ordering => Some (In_StructAtomicSet ordering struct_type_index field_index) | None => None end
  | Op_StructAtomicRmwAdd ordering struct_type_index field_index => match c_ordering ordering with Some ordering => Some (In_StructAtomicRmwAdd ordering struct_type_index field_index) | None => None end
  | Op_StructAtomicRmwSub ordering struct_type_index field_index => match c_ordering ordering with Some ordering => Some (In_StructAtomicRmwSub ordering struct_type_index field_index) | None => None end
  | Op_StructAtomicRmwAnd ordering struct_type_index field_index => match c_ordering ordering with Some ordering => Some (In_StructAtomicRmwAnd ordering struct_type_index field_index) | None => None end
  | Op_StructAtomicRmwOr ordering struct_type_index field_index => match c_ordering ordering with Some ordering => Some (In_StructAtomicRmwOr ordering struct_type_index field_index) | None => None end
  | Op_StructAtomicRmwXor ordering struct_type_index field_index => match c_ordering ordering with Some ordering => Some (In_StructAtomicRmwXor ordering struct_type_index field_index) | None => None end
  | Op_StructAtomicRmwXchg ordering struct_type_index field_index => match c_ordering ordering with Some ordering => Some (In_StructAtomicRmwXchg ordering struct_type_index field_index) | None => None end
  | Op_StructAtomicRmwCmpxchg ordering struct_type_index field_index => match c_ordering ordering with Some ordering => Some (In_StructAtomicRmwCmpxchg ordering struct_type_index field_index) | None => None end
  | Op_ArrayAtomicGet ordering array_type_index => match c_ordering ordering with Some ordering => Some (In_ArrayAtomicGet ordering array_type_index) | None => None end
  | Op_ArrayAtomicGetS ordering array_type_index => match c_ordering ordering with Some ordering => Some (In_ArrayAtomicGetS ordering array_type_index) | None => None end
  | Op_ArrayAtomicGetU ordering array_type_index => match c_ordering ordering with Some ordering => Some (In_ArrayAtomicGetU ordering array_type_index) | None => None end
  | Op_ArrayAtomicSet ordering array_type_index => match c_ordering ordering with Some ordering => Some (In_ArrayAtomicSet ordering array_type_index) | None => None end
  | Op_ArrayAtomicRmwAdd ordering array_type_index => match c_ordering ordering with Some ordering => Some (In_ArrayAtomicRmwAdd ordering array_type_index) | None => None end
  | Op_ArrayAtomicRmwSub ordering array_type_index => match c_ordering ordering with Some ordering => Some (In_ArrayAtomicRmwSub ordering array_type_index) | None => None end
  | Op_ArrayAtomicRmwAnd ordering array_type_index => match c_ordering ordering with Some ordering => Some (In_ArrayAtomicRmwAnd ordering array_type_index) | None => None end
  | Op_ArrayAtomicRmwOr ordering array_type_index => match c_ordering ordering with Some ordering => Some (In_ArrayAtomicRmwOr ordering array_type_index) | None => None end
  | Op_ArrayAtomicRmwXor ordering array_type_index => match c_ordering ordering with Some ordering => Some (In_ArrayAtomicRmwXor ordering array_type_index) | None => None end
  | Op_ArrayAtomicRmwXchg ordering array_type_index => match c_ordering ordering with Some ordering => Some (In_ArrayAtomicRmwXchg ordering array_type_index) | None => None end
  | Op_ArrayAtomicRmwCmpxchg ordering array_type_index => match c_ordering ordering with Some ordering => Some (In_ArrayAtomicRmwCmpxchg ordering array_type_index) | None => None end
  | Op_RefI31Shared => Some In_RefI31Shared
  | Op_CallRef type_index => Some (In_CallRef type_index)
  | Op_ReturnCallRef type_index => Some (In_ReturnCallRef type_index)
  | Op_RefAsNonNull => Some In_RefAsNonNull
  | Op_BrOnNull relative_depth => Some (In_BrOnNull relative_depth)
  | Op_BrOnNonNull relative_depth => Some (In_BrOnNonNull relative_depth)
  | Op_ContNew cont_type_index => Some (In_ContNew cont_type_index)
  | Op_ContBind argument_index result_index => Some (In_ContBind argument_index result_index)
  | Op_Suspend tag_index => Some (In_Suspend tag_index)
  | Op_Resume cont_type_index resume_table => match c_handles resume_table with Some resume_table => Some (In_Resume cont_type_index resume_table) | None => None end
  | Op_ResumeThrow cont_type_index tag_index resume_table => match c_handles resume_table with Some resume_table => Some (In_ResumeThrow cont_type_index tag_index resume_table) | None => None end
  | Op_ResumeThrowRef cont_type_index resume_table => match c_handles resume_table with Some resume_table => Some (In_ResumeThrowRef cont_type_index resume_table) | None => None end
  | Op_Switch cont_type_index tag_index => Some (In_Switch cont_type_index tag_index)
  | Op_I64Add128 => Some In_I64Add128
  | Op_I64Sub128 => Some In_I64Sub128
  | Op_I64MulWideS => Some In_I64MulWideS
  | Op_I64MulWideU => Some In_I64MulWideU
  end.
