(** GENERATED by tools/gen_sig.py: types of the scalar, vector and memory-access instructions by the naming rules of the
    WebAssembly specification ([t.binop], [t2.cvtop_t1], [t.load], ...); a specification, nothing is taken from the validator. *)
From Verif.Base Require Import Prelude.
From Verif.Types Require Import RefModel CodecModel CanonModel.
From Verif.Instr Require Import ImmModel Ops.
From Verif.Validator Require Import State.

(** Instructions whose type depends on nothing: operands (last on top) and results. *)
Definition num_sig (o : operator) : option (list val * list val) :=
  match o with
  | Op_I32Const _
    => Some ([], [VI32])
  | Op_I64Const _
    => Some ([], [VI64])
  | Op_F32Const _
    => Some ([], [VF32])
  | Op_F64Const _
    => Some ([], [VF64])
  | Op_I32Eqz | Op_I32Clz | Op_I32Ctz | Op_I32Popcnt | Op_I32Extend8S | Op_I32Extend16S
    => Some ([VI32], [VI32])
  | Op_I32Eq | Op_I32Ne | Op_I32LtS | Op_I32LtU | Op_I32GtS | Op_I32GtU | Op_I32LeS | Op_I32LeU
  | Op_I32GeS | Op_I32GeU | Op_I32Add | Op_I32Sub | Op_I32Mul | Op_I32DivS | Op_I32DivU | Op_I32RemS
  | Op_I32RemU | Op_I32And | Op_I32Or | Op_I32Xor | Op_I32Shl | Op_I32ShrS | Op_I32ShrU | Op_I32Rotl
  | Op_I32Rotr
    => Some ([VI32; VI32], [VI32])
  | Op_I64Eqz | Op_I32WrapI64
    => Some ([VI64], [VI32])
  | Op_I64Eq | Op_I64Ne | Op_I64LtS | Op_I64LtU | Op_I64GtS | Op_I64GtU | Op_I64LeS | Op_I64LeU
  | Op_I64GeS | Op_I64GeU
    => Some ([VI64; VI64], [VI32])
  | Op_F32Eq | Op_F32Ne | Op_F32Lt | Op_F32Gt | Op_F32Le | Op_F32Ge
    => Some ([VF32; VF32], [VI32])
  | Op_F64Eq | Op_F64Ne | Op_F64Lt | Op_F64Gt | Op_F64Le | Op_F64Ge
    => Some ([VF64; VF64], [VI32])
  | Op_I64Clz | Op_I64Ctz | Op_I64Popcnt | Op_I64Extend8S | Op_I64Extend16S | Op_I64Extend32S
    => Some ([VI64], [VI64])
  | Op_I64Add | Op_I64Sub | Op_I64Mul | Op_I64DivS | Op_I64DivU | Op_I64RemS | Op_I64RemU | Op_I64And
  | Op_I64Or | Op_I64Xor | Op_I64Shl | Op_I64ShrS | Op_I64ShrU | Op_I64Rotl | Op_I64Rotr
    => Some ([VI64; VI64], [VI64])
  | Op_F32Abs | Op_F32Neg | Op_F32Ceil | Op_F32Floor | Op_F32Trunc | Op_F32Nearest | Op_F32Sqrt
    => Some ([VF32], [VF32])
  | Op_F32Add | Op_F32Sub | Op_F32Mul | Op_F32Div | Op_F32Min | Op_F32Max | Op_F32Copysign
    => Some ([VF32; VF32], [VF32])
  | Op_F64Abs | Op_F64Neg | Op_F64Ceil | Op_F64Floor | Op_F64Trunc | Op_F64Nearest | Op_F64Sqrt
    => Some ([VF64], [VF64])
  | Op_F64Add | Op_F64Sub | Op_F64Mul | Op_F64Div | Op_F64Min | Op_F64Max | Op_F64Copysign
    => Some ([VF64; VF64], [VF64])
  | Op_I32TruncF32S | Op_I32TruncF32U | Op_I32ReinterpretF32 | Op_I32TruncSatF32S | Op_I32TruncSatF32U
    => Some ([VF32], [VI32])
  | Op_I32TruncF64S | Op_I32TruncF64U | Op_I32TruncSatF64S | Op_I32TruncSatF64U
    => Some ([VF64], [VI32])
  | Op_I64ExtendI32S | Op_I64ExtendI32U
    => Some ([VI32], [VI64])
  | Op_I64TruncF32S | Op_I64TruncF32U | Op_I64TruncSatF32S | Op_I64TruncSatF32U
    => Some ([VF32], [VI64])
  | Op_I64TruncF64S | Op_I64TruncF64U | Op_I64ReinterpretF64 | Op_I64TruncSatF64S | Op_I64TruncSatF64U
    => Some ([VF64], [VI64])
  | Op_F32ConvertI32S | Op_F32ConvertI32U | Op_F32ReinterpretI32
    => Some ([VI32], [VF32])
  | Op_F32ConvertI64S | Op_F32ConvertI64U
    => Some ([VI64], [VF32])
  | Op_F32DemoteF64
    => Some ([VF64], [VF32])
  | Op_F64ConvertI32S | Op_F64ConvertI32U
    => Some ([VI32], [VF64])
  | Op_F64ConvertI64S | Op_F64ConvertI64U | Op_F64ReinterpretI64
    => Some ([VI64], [VF64])
  | Op_F64PromoteF32
    => Some ([VF32], [VF64])
  | Op_V128Const _
    => Some ([], [VV128])
  | Op_I8x16Swizzle | Op_I8x16Eq | Op_I8x16Ne | Op_I8x16LtS | Op_I8x16LtU | Op_I8x16GtS | Op_I8x16GtU | Op_I8x16LeS
  | Op_I8x16LeU | Op_I8x16GeS | Op_I8x16GeU | Op_I16x8Eq | Op_I16x8Ne | Op_I16x8LtS | Op_I16x8LtU | Op_I16x8GtS
  | Op_I16x8GtU | Op_I16x8LeS | Op_I16x8LeU | Op_I16x8GeS | Op_I16x8GeU | Op_I32x4Eq | Op_I32x4Ne | Op_I32x4LtS
  | Op_I32x4LtU | Op_I32x4GtS | Op_I32x4GtU | Op_I32x4LeS | Op_I32x4LeU | Op_I32x4GeS | Op_I32x4GeU | Op_I64x2Eq
  | Op_I64x2Ne | Op_I64x2LtS | Op_I64x2GtS | Op_I64x2LeS | Op_I64x2GeS | Op_F32x4Eq | Op_F32x4Ne | Op_F32x4Lt
  | Op_F32x4Gt | Op_F32x4Le | Op_F32x4Ge | Op_F64x2Eq | Op_F64x2Ne | Op_F64x2Lt | Op_F64x2Gt | Op_F64x2Le
  | Op_F64x2Ge | Op_V128And | Op_V128AndNot | Op_V128Or | Op_V128Xor | Op_I8x16NarrowI16x8S | Op_I8x16NarrowI16x8U | Op_I8x16Add
  | Op_I8x16AddSatS | Op_I8x16AddSatU | Op_I8x16Sub | Op_I8x16SubSatS | Op_I8x16SubSatU | Op_I8x16MinS | Op_I8x16MinU | Op_I8x16MaxS
  | Op_I8x16MaxU | Op_I8x16AvgrU | Op_I16x8Q15MulrSatS | Op_I16x8NarrowI32x4S | Op_I16x8NarrowI32x4U | Op_I16x8Add | Op_I16x8AddSatS | Op_I16x8AddSatU
  | Op_I16x8Sub | Op_I16x8SubSatS | Op_I16x8SubSatU | Op_I16x8Mul | Op_I16x8MinS | Op_I16x8MinU | Op_I16x8MaxS | Op_I16x8MaxU
  | Op_I16x8AvgrU | Op_I16x8ExtMulLowI8x16S | Op_I16x8ExtMulHighI8x16S | Op_I16x8ExtMulLowI8x16U | Op_I16x8ExtMulHighI8x16U | Op_I32x4Add | Op_I32x4Sub | Op_I32x4Mul
  | Op_I32x4MinS | Op_I32x4MinU | Op_I32x4MaxS | Op_I32x4MaxU | Op_I32x4DotI16x8S | Op_I32x4ExtMulLowI16x8S | Op_I32x4ExtMulHighI16x8S | Op_I32x4ExtMulLowI16x8U
  | Op_I32x4ExtMulHighI16x8U | Op_I64x2Add | Op_I64x2Sub | Op_I64x2Mul | Op_I64x2ExtMulLowI32x4S | Op_I64x2ExtMulHighI32x4S | Op_I64x2ExtMulLowI32x4U | Op_I64x2ExtMulHighI32x4U
  | Op_F32x4Add | Op_F32x4Sub | Op_F32x4Mul | Op_F32x4Div | Op_F32x4Min | Op_F32x4Max | Op_F32x4PMin | Op_F32x4PMax
  | Op_F64x2Add | Op_F64x2Sub | Op_F64x2Mul | Op_F64x2Div | Op_F64x2Min | Op_F64x2Max | Op_F64x2PMin | Op_F64x2PMax
  | Op_I8x16RelaxedSwizzle | Op_F32x4RelaxedMin | Op_F32x4RelaxedMax | Op_F64x2RelaxedMin | Op_F64x2RelaxedMax | Op_I16x8RelaxedQ15mulrS | Op_I16x8RelaxedDotI8x16I7x16S
    => Some ([VV128; VV128], [VV128])
  | Op_I8x16Splat | Op_I16x8Splat | Op_I32x4Splat
    => Some ([VI32], [VV128])
  | Op_I64x2Splat
    => Some ([VI64], [VV128])
  | Op_F32x4Splat
    => Some ([VF32], [VV128])
  | Op_F64x2Splat
    => Some ([VF64], [VV128])
  | Op_V128Not | Op_I8x16Abs | Op_I8x16Neg | Op_I8x16Popcnt | Op_I16x8ExtAddPairwiseI8x16S | Op_I16x8ExtAddPairwiseI8x16U | Op_I16x8Abs | Op_I16x8Neg
  | Op_I16x8ExtendLowI8x16S | Op_I16x8ExtendHighI8x16S | Op_I16x8ExtendLowI8x16U | Op_I16x8ExtendHighI8x16U | Op_I32x4ExtAddPairwiseI16x8S | Op_I32x4ExtAddPairwiseI16x8U | Op_I32x4Abs | Op_I32x4Neg
  | Op_I32x4ExtendLowI16x8S | Op_I32x4ExtendHighI16x8S | Op_I32x4ExtendLowI16x8U | Op_I32x4ExtendHighI16x8U | Op_I64x2Abs | Op_I64x2Neg | Op_I64x2ExtendLowI32x4S | Op_I64x2ExtendHighI32x4S
  | Op_I64x2ExtendLowI32x4U | Op_I64x2ExtendHighI32x4U | Op_F32x4Ceil | Op_F32x4Floor | Op_F32x4Trunc | Op_F32x4Nearest | Op_F32x4Abs | Op_F32x4Neg
  | Op_F32x4Sqrt | Op_F64x2Ceil | Op_F64x2Floor | Op_F64x2Trunc | Op_F64x2Nearest | Op_F64x2Abs | Op_F64x2Neg | Op_F64x2Sqrt
  | Op_I32x4TruncSatF32x4S | Op_I32x4TruncSatF32x4U | Op_F32x4ConvertI32x4S | Op_F32x4ConvertI32x4U | Op_I32x4TruncSatF64x2SZero | Op_I32x4TruncSatF64x2UZero | Op_F64x2ConvertLowI32x4S | Op_F64x2ConvertLowI32x4U
  | Op_F32x4DemoteF64x2Zero | Op_F64x2PromoteLowF32x4 | Op_I32x4RelaxedTruncF32x4S | Op_I32x4RelaxedTruncF32x4U | Op_I32x4RelaxedTruncF64x2SZero | Op_I32x4RelaxedTruncF64x2UZero
    => Some ([VV128], [VV128])
  | Op_V128Bitselect | Op_F32x4RelaxedMadd | Op_F32x4RelaxedNmadd | Op_F64x2RelaxedMadd | Op_F64x2RelaxedNmadd | Op_I8x16RelaxedLaneselect | Op_I16x8RelaxedLaneselect | Op_I32x4RelaxedLaneselect
  | Op_I64x2RelaxedLaneselect | Op_I32x4RelaxedDotI8x16I7x16AddS
    => Some ([VV128; VV128; VV128], [VV128])
  | Op_V128AnyTrue | Op_I8x16AllTrue | Op_I8x16Bitmask | Op_I16x8AllTrue | Op_I16x8Bitmask | Op_I32x4AllTrue | Op_I32x4Bitmask | Op_I64x2AllTrue
  | Op_I64x2Bitmask
    => Some ([VV128], [VI32])
  | Op_I8x16Shl | Op_I8x16ShrS | Op_I8x16ShrU | Op_I16x8Shl | Op_I16x8ShrS | Op_I16x8ShrU | Op_I32x4Shl | Op_I32x4ShrS
  | Op_I32x4ShrU | Op_I64x2Shl | Op_I64x2ShrS | Op_I64x2ShrU
    => Some ([VV128; VI32], [VV128])
  | Op_I64Add128 | Op_I64Sub128
    => Some ([VI64; VI64; VI64; VI64], [VI64; VI64])
  | Op_I64MulWideS | Op_I64MulWideU
    => Some ([VI64; VI64], [VI64; VI64])
  | _ => None
  end.

(** Accesses to a lane of a vector: whether the lane exists, operands and results. *)
Definition lane_sig (o : operator) : option (bool * list val * list val) :=
  match o with
  | Op_I8x16ExtractLaneS l | Op_I8x16ExtractLaneU l => Some (l <? 16, [VV128], [VI32])
  | Op_I8x16ReplaceLane l => Some (l <? 16, [VV128; VI32], [VV128])
  | Op_I16x8ExtractLaneS l | Op_I16x8ExtractLaneU l => Some (l <? 8, [VV128], [VI32])
  | Op_I16x8ReplaceLane l => Some (l <? 8, [VV128; VI32], [VV128])
  | Op_I32x4ExtractLane l => Some (l <? 4, [VV128], [VI32])
  | Op_I32x4ReplaceLane l => Some (l <? 4, [VV128; VI32], [VV128])
  | Op_I64x2ExtractLane l => Some (l <? 2, [VV128], [VI64])
  | Op_I64x2ReplaceLane l => Some (l <? 2, [VV128; VI64], [VV128])
  | Op_F32x4ExtractLane l => Some (l <? 4, [VV128], [VF32])
  | Op_F32x4ReplaceLane l => Some (l <? 4, [VV128; VF32], [VV128])
  | Op_F64x2ExtractLane l => Some (l <? 2, [VV128], [VF64])
  | Op_F64x2ReplaceLane l => Some (l <? 2, [VV128; VF64], [VV128])
  | _ => None
  end.

(** Memory accesses: the immediate, whether the alignment must be the natural one, whether the lane if any exists, and the type
    for the address type [a]. *)
Definition mem_sig (o : operator) : option (p_memarg * bool * bool * (val -> list val * list val)) :=
  match o with
  | Op_I32Load m | Op_I32Load8S m | Op_I32Load8U m | Op_I32Load16S m | Op_I32Load16U m
    => Some (m, false, true, fun a => ([a], [VI32]))
  | Op_I64Load m | Op_I64Load8S m | Op_I64Load8U m | Op_I64Load16S m | Op_I64Load16U m | Op_I64Load32S m
  | Op_I64Load32U m
    => Some (m, false, true, fun a => ([a], [VI64]))
  | Op_F32Load m
    => Some (m, false, true, fun a => ([a], [VF32]))
  | Op_F64Load m
    => Some (m, false, true, fun a => ([a], [VF64]))
  | Op_I32Store m | Op_I32Store8 m | Op_I32Store16 m
    => Some (m, false, true, fun a => ([a; VI32], []))
  | Op_I64Store m | Op_I64Store8 m | Op_I64Store16 m | Op_I64Store32 m
    => Some (m, false, true, fun a => ([a; VI64], []))
  | Op_F32Store m
    => Some (m, false, true, fun a => ([a; VF32], []))
  | Op_F64Store m
    => Some (m, false, true, fun a => ([a; VF64], []))
  | Op_I32AtomicLoad m | Op_I32AtomicLoad8U m | Op_I32AtomicLoad16U m
    => Some (m, true, true, fun a => ([a], [VI32]))
  | Op_I64AtomicLoad m | Op_I64AtomicLoad8U m | Op_I64AtomicLoad16U m | Op_I64AtomicLoad32U m
    => Some (m, true, true, fun a => ([a], [VI64]))
  | Op_I32AtomicStore m | Op_I32AtomicStore8 m | Op_I32AtomicStore16 m
    => Some (m, true, true, fun a => ([a; VI32], []))
  | Op_I64AtomicStore m | Op_I64AtomicStore8 m | Op_I64AtomicStore16 m | Op_I64AtomicStore32 m
    => Some (m, true, true, fun a => ([a; VI64], []))
  | Op_I32AtomicRmwAdd m | Op_I32AtomicRmw8AddU m | Op_I32AtomicRmw16AddU m | Op_I32AtomicRmwSub m | Op_I32AtomicRmw8SubU m | Op_I32AtomicRmw16SubU m
  | Op_I32AtomicRmwAnd m | Op_I32AtomicRmw8AndU m | Op_I32AtomicRmw16AndU m | Op_I32AtomicRmwOr m | Op_I32AtomicRmw8OrU m | Op_I32AtomicRmw16OrU m
  | Op_I32AtomicRmwXor m | Op_I32AtomicRmw8XorU m | Op_I32AtomicRmw16XorU m | Op_I32AtomicRmwXchg m | Op_I32AtomicRmw8XchgU m | Op_I32AtomicRmw16XchgU m
    => Some (m, true, true, fun a => ([a; VI32], [VI32]))
  | Op_I64AtomicRmwAdd m | Op_I64AtomicRmw8AddU m | Op_I64AtomicRmw16AddU m | Op_I64AtomicRmw32AddU m | Op_I64AtomicRmwSub m | Op_I64AtomicRmw8SubU m
  | Op_I64AtomicRmw16SubU m | Op_I64AtomicRmw32SubU m | Op_I64AtomicRmwAnd m | Op_I64AtomicRmw8AndU m | Op_I64AtomicRmw16AndU m | Op_I64AtomicRmw32AndU m
  | Op_I64AtomicRmwOr m | Op_I64AtomicRmw8OrU m | Op_I64AtomicRmw16OrU m | Op_I64AtomicRmw32OrU m | Op_I64AtomicRmwXor m | Op_I64AtomicRmw8XorU m
  | Op_I64AtomicRmw16XorU m | Op_I64AtomicRmw32XorU m | Op_I64AtomicRmwXchg m | Op_I64AtomicRmw8XchgU m | Op_I64AtomicRmw16XchgU m | Op_I64AtomicRmw32XchgU m
    => Some (m, true, true, fun a => ([a; VI64], [VI64]))
  | Op_I32AtomicRmwCmpxchg m | Op_I32AtomicRmw8CmpxchgU m | Op_I32AtomicRmw16CmpxchgU m
    => Some (m, true, true, fun a => ([a; VI32; VI32], [VI32]))
  | Op_I64AtomicRmwCmpxchg m | Op_I64AtomicRmw8CmpxchgU m | Op_I64AtomicRmw16CmpxchgU m | Op_I64AtomicRmw32CmpxchgU m
    => Some (m, true, true, fun a => ([a; VI64; VI64], [VI64]))
  | Op_V128Load m | Op_V128Load8x8S m | Op_V128Load8x8U m | Op_V128Load16x4S m | Op_V128Load16x4U m | Op_V128Load32x2S m
  | Op_V128Load32x2U m | Op_V128Load8Splat m | Op_V128Load16Splat m | Op_V128Load32Splat m | Op_V128Load64Splat m | Op_V128Load32Zero m
  | Op_V128Load64Zero m
    => Some (m, false, true, fun a => ([a], [VV128]))
  | Op_V128Store m
    => Some (m, false, true, fun a => ([a; VV128], []))
  | Op_V128Load8Lane m l
    => Some (m, false, l <? 16, fun a => ([a; VV128], [VV128]))
  | Op_V128Load16Lane m l
    => Some (m, false, l <? 8, fun a => ([a; VV128], [VV128]))
  | Op_V128Load32Lane m l
    => Some (m, false, l <? 4, fun a => ([a; VV128], [VV128]))
  | Op_V128Load64Lane m l
    => Some (m, false, l <? 2, fun a => ([a; VV128], [VV128]))
  | Op_V128Store8Lane m l
    => Some (m, false, l <? 16, fun a => ([a; VV128], []))
  | Op_V128Store16Lane m l
    => Some (m, false, l <? 8, fun a => ([a; VV128], []))
  | Op_V128Store32Lane m l
    => Some (m, false, l <? 4, fun a => ([a; VV128], []))
  | Op_V128Store64Lane m l
    => Some (m, false, l <? 2, fun a => ([a; VV128], []))
  | _ => None
  end.
