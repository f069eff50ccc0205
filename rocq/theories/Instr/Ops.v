(** Generated by tools/gen_instr.py from crates/wasmparser/src/lib.rs and crates/wasm-encoder/src/core/code.rs: do not edit. *)
From Verif.Base Require Import Prelude.
From Verif.Reader Require Import Model.
From Verif.Leb Require Import Model.
From Verif.Codec Require Import Kit.
From Verif.Types Require Import RefModel CodecModel EntityModel.
From Verif.Instr Require Import ImmModel.

(** [enum Operator] of wasmparser, made from [_for_each_operator_group] (lib.rs:69-805); lines on the right. *)
Inductive operator :=
| Op_Unreachable (* 73 *)
| Op_Nop (* 74 *)
| Op_Block (blockty : p_block) (* 75 *)
| Op_Loop (blockty : p_block) (* 76 *)
| Op_If (blockty : p_block) (* 77 *)
| Op_Else (* 78 *)
| Op_End (* 79 *)
| Op_Br (relative_depth : Z) (* 80 *)
| Op_BrIf (relative_depth : Z) (* 81 *)
| Op_BrTable (targets : p_br_table) (* 82 *)
| Op_Return (* 83 *)
| Op_Call (function_index : Z) (* 84 *)
| Op_CallIndirect (type_index : Z) (table_index : Z) (* 85 *)
| Op_Drop (* 86 *)
| Op_Select (* 87 *)
| Op_LocalGet (local_index : Z) (* 88 *)
| Op_LocalSet (local_index : Z) (* 89 *)
| Op_LocalTee (local_index : Z) (* 90 *)
| Op_GlobalGet (global_index : Z) (* 91 *)
| Op_GlobalSet (global_index : Z) (* 92 *)
| Op_I32Load (memarg : p_memarg) (* 93 *)
| Op_I64Load (memarg : p_memarg) (* 94 *)
| Op_F32Load (memarg : p_memarg) (* 95 *)
| Op_F64Load (memarg : p_memarg) (* 96 *)
| Op_I32Load8S (memarg : p_memarg) (* 97 *)
| Op_I32Load8U (memarg : p_memarg) (* 98 *)
| Op_I32Load16S (memarg : p_memarg) (* 99 *)
| Op_I32Load16U (memarg : p_memarg) (* 100 *)
| Op_I64Load8S (memarg : p_memarg) (* 101 *)
| Op_I64Load8U (memarg : p_memarg) (* 102 *)
| Op_I64Load16S (memarg : p_memarg) (* 103 *)
| Op_I64Load16U (memarg : p_memarg) (* 104 *)
| Op_I64Load32S (memarg : p_memarg) (* 105 *)
| Op_I64Load32U (memarg : p_memarg) (* 106 *)
| Op_I32Store (memarg : p_memarg) (* 107 *)
| Op_I64Store (memarg : p_memarg) (* 108 *)
| Op_F32Store (memarg : p_memarg) (* 109 *)
| Op_F64Store (memarg : p_memarg) (* 110 *)
| Op_I32Store8 (memarg : p_memarg) (* 111 *)
| Op_I32Store16 (memarg : p_memarg) (* 112 *)
| Op_I64Store8 (memarg : p_memarg) (* 113 *)
| Op_I64Store16 (memarg : p_memarg) (* 114 *)
| Op_I64Store32 (memarg : p_memarg) (* 115 *)
| Op_MemorySize (mem : Z) (* 116 *)
| Op_MemoryGrow (mem : Z) (* 117 *)
| Op_I32Const (value : Z) (* 118 *)
| Op_I64Const (value : Z) (* 119 *)
| Op_F32Const (value : Z) (* 120 *)
| Op_F64Const (value : Z) (* 121 *)
| Op_I32Eqz (* 122 *)
| Op_I32Eq (* 123 *)
| Op_I32Ne (* 124 *)
| Op_I32LtS (* 125 *)
| Op_I32LtU (* 126 *)
| Op_I32GtS (* 127 *)
| Op_I32GtU (* 128 *)
| Op_I32LeS (* 129 *)
| Op_I32LeU (* 130 *)
| Op_I32GeS (* 131 *)
| Op_I32GeU (* 132 *)
| Op_I64Eqz (* 133 *)
| Op_I64Eq (* 134 *)
| Op_I64Ne (* 135 *)
| Op_I64LtS (* 136 *)
| Op_I64LtU (* 137 *)
| Op_I64GtS (* 138 *)
| Op_I64GtU (* 139 *)
| Op_I64LeS (* 140 *)
| Op_I64LeU (* 141 *)
| Op_I64GeS (* 142 *)
| Op_I64GeU (* 143 *)
| Op_F32Eq (* 144 *)
| Op_F32Ne (* 145 *)
| Op_F32Lt (* 146 *)
| Op_F32Gt (* 147 *)
| Op_F32Le (* 148 *)
| Op_F32Ge (* 149 *)
| Op_F64Eq (* 150 *)
| Op_F64Ne (* 151 *)
| Op_F64Lt (* 152 *)
| Op_F64Gt (* 153 *)
| Op_F64Le (* 154 *)
| Op_F64Ge (* 155 *)
| Op_I32Clz (* 156 *)
| Op_I32Ctz (* 157 *)
| Op_I32Popcnt (* 158 *)
| Op_I32Add (* 159 *)
| Op_I32Sub (* 160 *)
| Op_I32Mul (* 161 *)
| Op_I32DivS (* 162 *)
| Op_I32DivU (* 163 *)
| Op_I32RemS (* 164 *)
| Op_I32RemU (* 165 *)
| Op_I32And (* 166 *)
| Op_I32Or (* 167 *)
| Op_I32Xor (* 168 *)
| Op_I32Shl (* 169 *)
| Op_I32ShrS (* 170 *)
| Op_I32ShrU (* 171 *)
| Op_I32Rotl (* 172 *)
| Op_I32Rotr (* 173 *)
| Op_I64Clz (* 174 *)
| Op_I64Ctz (* 175 *)
| Op_I64Popcnt (* 176 *)
| Op_I64Add (* 177 *)
| Op_I64Sub (* 178 *)
| Op_I64Mul (* 179 *)
| Op_I64DivS (* 180 *)
| Op_I64DivU (* 181 *)
| Op_I64RemS (* 182 *)
| Op_I64RemU (* 183 *)
| Op_I64And (* 184 *)
| Op_I64Or (* 185 *)
| Op_I64Xor (* 186 *)
| Op_I64Shl (* 187 *)
| Op_I64ShrS (* 188 *)
| Op_I64ShrU (* 189 *)
| Op_I64Rotl (* 190 *)
| Op_I64Rotr (* 191 *)
| Op_F32Abs (* 192 *)
| Op_F32Neg (* 193 *)
| Op_F32Ceil (* 194 *)
| Op_F32Floor (* 195 *)
| Op_F32Trunc (* 196 *)
| Op_F32Nearest (* 197 *)
| Op_F32Sqrt (* 198 *)
| Op_F32Add (* 199 *)
| Op_F32Sub (* 200 *)
| Op_F32Mul (* 201 *)
| Op_F32Div (* 202 *)
| Op_F32Min (* 203 *)
| Op_F32Max (* 204 *)
| Op_F32Copysign (* 205 *)
| Op_F64Abs (* 206 *)
| Op_F64Neg (* 207 *)
| Op_F64Ceil (* 208 *)
| Op_F64Floor (* 209 *)
| Op_F64Trunc (* 210 *)
| Op_F64Nearest (* 211 *)
| Op_F64Sqrt (* 212 *)
| Op_F64Add (* 213 *)
| Op_F64Sub (* 214 *)
| Op_F64Mul (* 215 *)
| Op_F64Div (* 216 *)
| Op_F64Min (* 217 *)
| Op_F64Max (* 218 *)
| Op_F64Copysign (* 219 *)
| Op_I32WrapI64 (* 220 *)
| Op_I32TruncF32S (* 221 *)
| Op_I32TruncF32U (* 222 *)
| Op_I32TruncF64S (* 223 *)
| Op_I32TruncF64U (* 224 *)
| Op_I64ExtendI32S (* 225 *)
| Op_I64ExtendI32U (* 226 *)
| Op_I64TruncF32S (* 227 *)
| Op_I64TruncF32U (* 228 *)
| Op_I64TruncF64S (* 229 *)
| Op_I64TruncF64U (* 230 *)
| Op_F32ConvertI32S (* 231 *)
| Op_F32ConvertI32U (* 232 *)
| Op_F32ConvertI64S (* 233 *)
| Op_F32ConvertI64U (* 234 *)
| Op_F32DemoteF64 (* 235 *)
| Op_F64ConvertI32S (* 236 *)
| Op_F64ConvertI32U (* 237 *)
| Op_F64ConvertI64S (* 238 *)
| Op_F64ConvertI64U (* 239 *)
| Op_F64PromoteF32 (* 240 *)
| Op_I32ReinterpretF32 (* 241 *)
| Op_I64ReinterpretF64 (* 242 *)
| Op_F32ReinterpretI32 (* 243 *)
| Op_F64ReinterpretI64 (* 244 *)
| Op_I32Extend8S (* 248 *)
| Op_I32Extend16S (* 249 *)
| Op_I64Extend8S (* 250 *)
| Op_I64Extend16S (* 251 *)
| Op_I64Extend32S (* 252 *)
| Op_RefEq (* 259 *)
| Op_StructNew (struct_type_index : Z) (* 260 *)
| Op_StructNewDefault (struct_type_index : Z) (* 261 *)
| Op_StructGet (struct_type_index : Z) (field_index : Z) (* 262 *)
| Op_StructGetS (struct_type_index : Z) (field_index : Z) (* 263 *)
| Op_StructGetU (struct_type_index : Z) (field_index : Z) (* 264 *)
| Op_StructSet (struct_type_index : Z) (field_index : Z) (* 265 *)
| Op_ArrayNew (array_type_index : Z) (* 266 *)
| Op_ArrayNewDefault (array_type_index : Z) (* 267 *)
| Op_ArrayNewFixed (array_type_index : Z) (array_size : Z) (* 268 *)
| Op_ArrayNewData (array_type_index : Z) (array_data_index : Z) (* 269 *)
| Op_ArrayNewElem (array_type_index : Z) (array_elem_index : Z) (* 270 *)
| Op_ArrayGet (array_type_index : Z) (* 271 *)
| Op_ArrayGetS (array_type_index : Z) (* 272 *)
| Op_ArrayGetU (array_type_index : Z) (* 273 *)
| Op_ArraySet (array_type_index : Z) (* 274 *)
| Op_ArrayLen (* 275 *)
| Op_ArrayFill (array_type_index : Z) (* 276 *)
| Op_ArrayCopy (array_type_index_dst : Z) (array_type_index_src : Z) (* 277 *)
| Op_ArrayInitData (array_type_index : Z) (array_data_index : Z) (* 278 *)
| Op_ArrayInitElem (array_type_index : Z) (array_elem_index : Z) (* 279 *)
| Op_RefTestNonNull (hty : heap_type) (* 280 *)
| Op_RefTestNullable (hty : heap_type) (* 281 *)
| Op_RefCastNonNull (hty : heap_type) (* 282 *)
| Op_RefCastNullable (hty : heap_type) (* 283 *)
| Op_BrOnCast (relative_depth : Z) (from_ref_type : Z) (to_ref_type : Z) (* 284 *)
| Op_BrOnCastFail (relative_depth : Z) (from_ref_type : Z) (to_ref_type : Z) (* 289 *)
| Op_AnyConvertExtern (* 294 *)
| Op_ExternConvertAny (* 295 *)
| Op_RefI31 (* 296 *)
| Op_I31GetS (* 297 *)
| Op_I31GetU (* 298 *)
| Op_StructNewDesc (struct_type_index : Z) (* 302 *)
| Op_StructNewDefaultDesc (struct_type_index : Z) (* 303 *)
| Op_RefGetDesc (type_index : Z) (* 304 *)
| Op_RefCastDescEqNonNull (hty : heap_type) (* 305 *)
| Op_RefCastDescEqNullable (hty : heap_type) (* 306 *)
| Op_BrOnCastDescEq (relative_depth : Z) (from_ref_type : Z) (to_ref_type : Z) (* 307 *)
| Op_BrOnCastDescEqFail (relative_depth : Z) (from_ref_type : Z) (to_ref_type : Z) (* 312 *)
| Op_I32TruncSatF32S (* 323 *)
| Op_I32TruncSatF32U (* 324 *)
| Op_I32TruncSatF64S (* 325 *)
| Op_I32TruncSatF64U (* 326 *)
| Op_I64TruncSatF32S (* 327 *)
| Op_I64TruncSatF32U (* 328 *)
| Op_I64TruncSatF64S (* 329 *)
| Op_I64TruncSatF64U (* 330 *)
| Op_MemoryInit (data_index : Z) (mem : Z) (* 337 *)
| Op_DataDrop (data_index : Z) (* 338 *)
| Op_MemoryCopy (dst_mem : Z) (src_mem : Z) (* 339 *)
| Op_MemoryFill (mem : Z) (* 340 *)
| Op_TableInit (elem_index : Z) (table : Z) (* 341 *)
| Op_ElemDrop (elem_index : Z) (* 342 *)
| Op_TableCopy (dst_table : Z) (src_table : Z) (* 343 *)
| Op_TypedSelect (ty : p_val) (* 350 *)
| Op_TypedSelectMulti (tys : list p_val) (* 352 *)
| Op_RefNull (hty : heap_type) (* 353 *)
| Op_RefIsNull (* 354 *)
| Op_RefFunc (function_index : Z) (* 355 *)
| Op_TableFill (table : Z) (* 356 *)
| Op_TableGet (table : Z) (* 357 *)
| Op_TableSet (table : Z) (* 358 *)
| Op_TableGrow (table : Z) (* 359 *)
| Op_TableSize (table : Z) (* 360 *)
| Op_ReturnCall (function_index : Z) (* 366 *)
| Op_ReturnCallIndirect (type_index : Z) (table_index : Z) (* 367 *)
| Op_MemoryDiscard (mem : Z) (* 374 *)
| Op_MemoryAtomicNotify (memarg : p_memarg) (* 381 *)
| Op_MemoryAtomicWait32 (memarg : p_memarg) (* 382 *)
| Op_MemoryAtomicWait64 (memarg : p_memarg) (* 383 *)
| Op_AtomicFence (* 384 *)
| Op_I32AtomicLoad (memarg : p_memarg) (* 385 *)
| Op_I64AtomicLoad (memarg : p_memarg) (* 386 *)
| Op_I32AtomicLoad8U (memarg : p_memarg) (* 387 *)
| Op_I32AtomicLoad16U (memarg : p_memarg) (* 388 *)
| Op_I64AtomicLoad8U (memarg : p_memarg) (* 389 *)
| Op_I64AtomicLoad16U (memarg : p_memarg) (* 390 *)
| Op_I64AtomicLoad32U (memarg : p_memarg) (* 391 *)
| Op_I32AtomicStore (memarg : p_memarg) (* 392 *)
| Op_I64AtomicStore (memarg : p_memarg) (* 393 *)
| Op_I32AtomicStore8 (memarg : p_memarg) (* 394 *)
| Op_I32AtomicStore16 (memarg : p_memarg) (* 395 *)
| Op_I64AtomicStore8 (memarg : p_memarg) (* 396 *)
| Op_I64AtomicStore16 (memarg : p_memarg) (* 397 *)
| Op_I64AtomicStore32 (memarg : p_memarg) (* 398 *)
| Op_I32AtomicRmwAdd (memarg : p_memarg) (* 399 *)
| Op_I64AtomicRmwAdd (memarg : p_memarg) (* 400 *)
| Op_I32AtomicRmw8AddU (memarg : p_memarg) (* 401 *)
| Op_I32AtomicRmw16AddU (memarg : p_memarg) (* 402 *)
| Op_I64AtomicRmw8AddU (memarg : p_memarg) (* 403 *)
| Op_I64AtomicRmw16AddU (memarg : p_memarg) (* 404 *)
| Op_I64AtomicRmw32AddU (memarg : p_memarg) (* 405 *)
| Op_I32AtomicRmwSub (memarg : p_memarg) (* 406 *)
| Op_I64AtomicRmwSub (memarg : p_memarg) (* 407 *)
| Op_I32AtomicRmw8SubU (memarg : p_memarg) (* 408 *)
| Op_I32AtomicRmw16SubU (memarg : p_memarg) (* 409 *)
| Op_I64AtomicRmw8SubU (memarg : p_memarg) (* 410 *)
| Op_I64AtomicRmw16SubU (memarg : p_memarg) (* 411 *)
| Op_I64AtomicRmw32SubU (memarg : p_memarg) (* 412 *)
| Op_I32AtomicRmwAnd (memarg : p_memarg) (* 413 *)
| Op_I64AtomicRmwAnd (memarg : p_memarg) (* 414 *)
| Op_I32AtomicRmw8AndU (memarg : p_memarg) (* 415 *)
| Op_I32AtomicRmw16AndU (memarg : p_memarg) (* 416 *)
| Op_I64AtomicRmw8AndU (memarg : p_memarg) (* 417 *)
| Op_I64AtomicRmw16AndU (memarg : p_memarg) (* 418 *)
| Op_I64AtomicRmw32AndU (memarg : p_memarg) (* 419 *)
| Op_I32AtomicRmwOr (memarg : p_memarg) (* 420 *)
| Op_I64AtomicRmwOr (memarg : p_memarg) (* 421 *)
| Op_I32AtomicRmw8OrU (memarg : p_memarg) (* 422 *)
| Op_I32AtomicRmw16OrU (memarg : p_memarg) (* 423 *)
| Op_I64AtomicRmw8OrU (memarg : p_memarg) (* 424 *)
| Op_I64AtomicRmw16OrU (memarg : p_memarg) (* 425 *)
| Op_I64AtomicRmw32OrU (memarg : p_memarg) (* 426 *)
| Op_I32AtomicRmwXor (memarg : p_memarg) (* 427 *)
| Op_I64AtomicRmwXor (memarg : p_memarg) (* 428 *)
| Op_I32AtomicRmw8XorU (memarg : p_memarg) (* 429 *)
| Op_I32AtomicRmw16XorU (memarg : p_memarg) (* 430 *)
| Op_I64AtomicRmw8XorU (memarg : p_memarg) (* 431 *)
| Op_I64AtomicRmw16XorU (memarg : p_memarg) (* 432 *)
| Op_I64AtomicRmw32XorU (memarg : p_memarg) (* 433 *)
| Op_I32AtomicRmwXchg (memarg : p_memarg) (* 434 *)
| Op_I64AtomicRmwXchg (memarg : p_memarg) (* 435 *)
| Op_I32AtomicRmw8XchgU (memarg : p_memarg) (* 436 *)
| Op_I32AtomicRmw16XchgU (memarg : p_memarg) (* 437 *)
| Op_I64AtomicRmw8XchgU (memarg : p_memarg) (* 438 *)
| Op_I64AtomicRmw16XchgU (memarg : p_memarg) (* 439 *)
| Op_I64AtomicRmw32XchgU (memarg : p_memarg) (* 440 *)
| Op_I32AtomicRmwCmpxchg (memarg : p_memarg) (* 441 *)
| Op_I64AtomicRmwCmpxchg (memarg : p_memarg) (* 442 *)
| Op_I32AtomicRmw8CmpxchgU (memarg : p_memarg) (* 443 *)
| Op_I32AtomicRmw16CmpxchgU (memarg : p_memarg) (* 444 *)
| Op_I64AtomicRmw8CmpxchgU (memarg : p_memarg) (* 445 *)
| Op_I64AtomicRmw16CmpxchgU (memarg : p_memarg) (* 446 *)
| Op_I64AtomicRmw32CmpxchgU (memarg : p_memarg) (* 447 *)
| Op_V128Load (memarg : p_memarg) (* 455 *)
| Op_V128Load8x8S (memarg : p_memarg) (* 456 *)
| Op_V128Load8x8U (memarg : p_memarg) (* 457 *)
| Op_V128Load16x4S (memarg : p_memarg) (* 458 *)
| Op_V128Load16x4U (memarg : p_memarg) (* 459 *)
| Op_V128Load32x2S (memarg : p_memarg) (* 460 *)
| Op_V128Load32x2U (memarg : p_memarg) (* 461 *)
| Op_V128Load8Splat (memarg : p_memarg) (* 462 *)
| Op_V128Load16Splat (memarg : p_memarg) (* 463 *)
| Op_V128Load32Splat (memarg : p_memarg) (* 464 *)
| Op_V128Load64Splat (memarg : p_memarg) (* 465 *)
| Op_V128Load32Zero (memarg : p_memarg) (* 466 *)
| Op_V128Load64Zero (memarg : p_memarg) (* 467 *)
| Op_V128Store (memarg : p_memarg) (* 468 *)
| Op_V128Load8Lane (memarg : p_memarg) (lane : Z) (* 469 *)
| Op_V128Load16Lane (memarg : p_memarg) (lane : Z) (* 470 *)
| Op_V128Load32Lane (memarg : p_memarg) (lane : Z) (* 471 *)
| Op_V128Load64Lane (memarg : p_memarg) (lane : Z) (* 472 *)
| Op_V128Store8Lane (memarg : p_memarg) (lane : Z) (* 473 *)
| Op_V128Store16Lane (memarg : p_memarg) (lane : Z) (* 474 *)
| Op_V128Store32Lane (memarg : p_memarg) (lane : Z) (* 475 *)
| Op_V128Store64Lane (memarg : p_memarg) (lane : Z) (* 476 *)
| Op_V128Const (value : list Z) (* 477 *)
| Op_I8x16Shuffle (lanes : list Z) (* 478 *)
| Op_I8x16ExtractLaneS (lane : Z) (* 479 *)
| Op_I8x16ExtractLaneU (lane : Z) (* 480 *)
| Op_I8x16ReplaceLane (lane : Z) (* 481 *)
| Op_I16x8ExtractLaneS (lane : Z) (* 482 *)
| Op_I16x8ExtractLaneU (lane : Z) (* 483 *)
| Op_I16x8ReplaceLane (lane : Z) (* 484 *)
| Op_I32x4ExtractLane (lane : Z) (* 485 *)
| Op_I32x4ReplaceLane (lane : Z) (* 486 *)
| Op_I64x2ExtractLane (lane : Z) (* 487 *)
| Op_I64x2ReplaceLane (lane : Z) (* 488 *)
| Op_F32x4ExtractLane (lane : Z) (* 489 *)
| Op_F32x4ReplaceLane (lane : Z) (* 490 *)
| Op_F64x2ExtractLane (lane : Z) (* 491 *)
| Op_F64x2ReplaceLane (lane : Z) (* 492 *)
| Op_I8x16Swizzle (* 493 *)
| Op_I8x16Splat (* 494 *)
| Op_I16x8Splat (* 495 *)
| Op_I32x4Splat (* 496 *)
| Op_I64x2Splat (* 497 *)
| Op_F32x4Splat (* 498 *)
| Op_F64x2Splat (* 499 *)
| Op_I8x16Eq (* 500 *)
| Op_I8x16Ne (* 501 *)
| Op_I8x16LtS (* 502 *)
| Op_I8x16LtU (* 503 *)
| Op_I8x16GtS (* 504 *)
| Op_I8x16GtU (* 505 *)
| Op_I8x16LeS (* 506 *)
| Op_I8x16LeU (* 507 *)
| Op_I8x16GeS (* 508 *)
| Op_I8x16GeU (* 509 *)
| Op_I16x8Eq (* 510 *)
| Op_I16x8Ne (* 511 *)
| Op_I16x8LtS (* 512 *)
| Op_I16x8LtU (* 513 *)
| Op_I16x8GtS (* 514 *)
| Op_I16x8GtU (* 515 *)
| Op_I16x8LeS (* 516 *)
| Op_I16x8LeU (* 517 *)
| Op_I16x8GeS (* 518 *)
| Op_I16x8GeU (* 519 *)
| Op_I32x4Eq (* 520 *)
| Op_I32x4Ne (* 521 *)
| Op_I32x4LtS (* 522 *)
| Op_I32x4LtU (* 523 *)
| Op_I32x4GtS (* 524 *)
| Op_I32x4GtU (* 525 *)
| Op_I32x4LeS (* 526 *)
| Op_I32x4LeU (* 527 *)
| Op_I32x4GeS (* 528 *)
| Op_I32x4GeU (* 529 *)
| Op_I64x2Eq (* 530 *)
| Op_I64x2Ne (* 531 *)
| Op_I64x2LtS (* 532 *)
| Op_I64x2GtS (* 533 *)
| Op_I64x2LeS (* 534 *)
| Op_I64x2GeS (* 535 *)
| Op_F32x4Eq (* 536 *)
| Op_F32x4Ne (* 537 *)
| Op_F32x4Lt (* 538 *)
| Op_F32x4Gt (* 539 *)
| Op_F32x4Le (* 540 *)
| Op_F32x4Ge (* 541 *)
| Op_F64x2Eq (* 542 *)
| Op_F64x2Ne (* 543 *)
| Op_F64x2Lt (* 544 *)
| Op_F64x2Gt (* 545 *)
| Op_F64x2Le (* 546 *)
| Op_F64x2Ge (* 547 *)
| Op_V128Not (* 548 *)
| Op_V128And (* 549 *)
| Op_V128AndNot (* 550 *)
| Op_V128Or (* 551 *)
| Op_V128Xor (* 552 *)
| Op_V128Bitselect (* 553 *)
| Op_V128AnyTrue (* 554 *)
| Op_I8x16Abs (* 555 *)
| Op_I8x16Neg (* 556 *)
| Op_I8x16Popcnt (* 557 *)
| Op_I8x16AllTrue (* 558 *)
| Op_I8x16Bitmask (* 559 *)
| Op_I8x16NarrowI16x8S (* 560 *)
| Op_I8x16NarrowI16x8U (* 561 *)
| Op_I8x16Shl (* 562 *)
| Op_I8x16ShrS (* 563 *)
| Op_I8x16ShrU (* 564 *)
| Op_I8x16Add (* 565 *)
| Op_I8x16AddSatS (* 566 *)
| Op_I8x16AddSatU (* 567 *)
| Op_I8x16Sub (* 568 *)
| Op_I8x16SubSatS (* 569 *)
| Op_I8x16SubSatU (* 570 *)
| Op_I8x16MinS (* 571 *)
| Op_I8x16MinU (* 572 *)
| Op_I8x16MaxS (* 573 *)
| Op_I8x16MaxU (* 574 *)
| Op_I8x16AvgrU (* 575 *)
| Op_I16x8ExtAddPairwiseI8x16S (* 576 *)
| Op_I16x8ExtAddPairwiseI8x16U (* 577 *)
| Op_I16x8Abs (* 578 *)
| Op_I16x8Neg (* 579 *)
| Op_I16x8Q15MulrSatS (* 580 *)
| Op_I16x8AllTrue (* 581 *)
| Op_I16x8Bitmask (* 582 *)
| Op_I16x8NarrowI32x4S (* 583 *)
| Op_I16x8NarrowI32x4U (* 584 *)
| Op_I16x8ExtendLowI8x16S (* 585 *)
| Op_I16x8ExtendHighI8x16S (* 586 *)
| Op_I16x8ExtendLowI8x16U (* 587 *)
| Op_I16x8ExtendHighI8x16U (* 588 *)
| Op_I16x8Shl (* 589 *)
| Op_I16x8ShrS (* 590 *)
| Op_I16x8ShrU (* 591 *)
| Op_I16x8Add (* 592 *)
| Op_I16x8AddSatS (* 593 *)
| Op_I16x8AddSatU (* 594 *)
| Op_I16x8Sub (* 595 *)
| Op_I16x8SubSatS (* 596 *)
| Op_I16x8SubSatU (* 597 *)
| Op_I16x8Mul (* 598 *)
| Op_I16x8MinS (* 599 *)
| Op_I16x8MinU (* 600 *)
| Op_I16x8MaxS (* 601 *)
| Op_I16x8MaxU (* 602 *)
| Op_I16x8AvgrU (* 603 *)
| Op_I16x8ExtMulLowI8x16S (* 604 *)
| Op_I16x8ExtMulHighI8x16S (* 605 *)
| Op_I16x8ExtMulLowI8x16U (* 606 *)
| Op_I16x8ExtMulHighI8x16U (* 607 *)
| Op_I32x4ExtAddPairwiseI16x8S (* 608 *)
| Op_I32x4ExtAddPairwiseI16x8U (* 609 *)
| Op_I32x4Abs (* 610 *)
| Op_I32x4Neg (* 611 *)
| Op_I32x4AllTrue (* 612 *)
| Op_I32x4Bitmask (* 613 *)
| Op_I32x4ExtendLowI16x8S (* 614 *)
| Op_I32x4ExtendHighI16x8S (* 615 *)
| Op_I32x4ExtendLowI16x8U (* 616 *)
| Op_I32x4ExtendHighI16x8U (* 617 *)
| Op_I32x4Shl (* 618 *)
| Op_I32x4ShrS (* 619 *)
| Op_I32x4ShrU (* 620 *)
| Op_I32x4Add (* 621 *)
| Op_I32x4Sub (* 622 *)
| Op_I32x4Mul (* 623 *)
| Op_I32x4MinS (* 624 *)
| Op_I32x4MinU (* 625 *)
| Op_I32x4MaxS (* 626 *)
| Op_I32x4MaxU (* 627 *)
| Op_I32x4DotI16x8S (* 628 *)
| Op_I32x4ExtMulLowI16x8S (* 629 *)
| Op_I32x4ExtMulHighI16x8S (* 630 *)
| Op_I32x4ExtMulLowI16x8U (* 631 *)
| Op_I32x4ExtMulHighI16x8U (* 632 *)
| Op_I64x2Abs (* 633 *)
| Op_I64x2Neg (* 634 *)
| Op_I64x2AllTrue (* 635 *)
| Op_I64x2Bitmask (* 636 *)
| Op_I64x2ExtendLowI32x4S (* 637 *)
| Op_I64x2ExtendHighI32x4S (* 638 *)
| Op_I64x2ExtendLowI32x4U (* 639 *)
| Op_I64x2ExtendHighI32x4U (* 640 *)
| Op_I64x2Shl (* 641 *)
| Op_I64x2ShrS (* 642 *)
| Op_I64x2ShrU (* 643 *)
| Op_I64x2Add (* 644 *)
| Op_I64x2Sub (* 645 *)
| Op_I64x2Mul (* 646 *)
| Op_I64x2ExtMulLowI32x4S (* 647 *)
| Op_I64x2ExtMulHighI32x4S (* 648 *)
| Op_I64x2ExtMulLowI32x4U (* 649 *)
| Op_I64x2ExtMulHighI32x4U (* 650 *)
| Op_F32x4Ceil (* 651 *)
| Op_F32x4Floor (* 652 *)
| Op_F32x4Trunc (* 653 *)
| Op_F32x4Nearest (* 654 *)
| Op_F32x4Abs (* 655 *)
| Op_F32x4Neg (* 656 *)
| Op_F32x4Sqrt (* 657 *)
| Op_F32x4Add (* 658 *)
| Op_F32x4Sub (* 659 *)
| Op_F32x4Mul (* 660 *)
| Op_F32x4Div (* 661 *)
| Op_F32x4Min (* 662 *)
| Op_F32x4Max (* 663 *)
| Op_F32x4PMin (* 664 *)
| Op_F32x4PMax (* 665 *)
| Op_F64x2Ceil (* 666 *)
| Op_F64x2Floor (* 667 *)
| Op_F64x2Trunc (* 668 *)
| Op_F64x2Nearest (* 669 *)
| Op_F64x2Abs (* 670 *)
| Op_F64x2Neg (* 671 *)
| Op_F64x2Sqrt (* 672 *)
| Op_F64x2Add (* 673 *)
| Op_F64x2Sub (* 674 *)
| Op_F64x2Mul (* 675 *)
| Op_F64x2Div (* 676 *)
| Op_F64x2Min (* 677 *)
| Op_F64x2Max (* 678 *)
| Op_F64x2PMin (* 679 *)
| Op_F64x2PMax (* 680 *)
| Op_I32x4TruncSatF32x4S (* 681 *)
| Op_I32x4TruncSatF32x4U (* 682 *)
| Op_F32x4ConvertI32x4S (* 683 *)
| Op_F32x4ConvertI32x4U (* 684 *)
| Op_I32x4TruncSatF64x2SZero (* 685 *)
| Op_I32x4TruncSatF64x2UZero (* 686 *)
| Op_F64x2ConvertLowI32x4S (* 687 *)
| Op_F64x2ConvertLowI32x4U (* 688 *)
| Op_F32x4DemoteF64x2Zero (* 689 *)
| Op_F64x2PromoteLowF32x4 (* 690 *)
| Op_I8x16RelaxedSwizzle (* 696 *)
| Op_I32x4RelaxedTruncF32x4S (* 697 *)
| Op_I32x4RelaxedTruncF32x4U (* 698 *)
| Op_I32x4RelaxedTruncF64x2SZero (* 699 *)
| Op_I32x4RelaxedTruncF64x2UZero (* 700 *)
| Op_F32x4RelaxedMadd (* 701 *)
| Op_F32x4RelaxedNmadd (* 702 *)
| Op_F64x2RelaxedMadd (* 703 *)
| Op_F64x2RelaxedNmadd (* 704 *)
| Op_I8x16RelaxedLaneselect (* 705 *)
| Op_I16x8RelaxedLaneselect (* 706 *)
| Op_I32x4RelaxedLaneselect (* 707 *)
| Op_I64x2RelaxedLaneselect (* 708 *)
| Op_F32x4RelaxedMin (* 709 *)
| Op_F32x4RelaxedMax (* 710 *)
| Op_F64x2RelaxedMin (* 711 *)
| Op_F64x2RelaxedMax (* 712 *)
| Op_I16x8RelaxedQ15mulrS (* 713 *)
| Op_I16x8RelaxedDotI8x16I7x16S (* 714 *)
| Op_I32x4RelaxedDotI8x16I7x16AddS (* 715 *)
| Op_TryTable (try_table : p_try_table) (* 719 *)
| Op_Throw (tag_index : Z) (* 720 *)
| Op_ThrowRef (* 721 *)
| Op_Try (blockty : p_block) (* 725 *)
| Op_Catch (tag_index : Z) (* 726 *)
| Op_Rethrow (relative_depth : Z) (* 727 *)
| Op_Delegate (relative_depth : Z) (* 728 *)
| Op_CatchAll (* 729 *)
| Op_GlobalAtomicGet (ordering : ordering) (global_index : Z) (* 736 *)
| Op_GlobalAtomicSet (ordering : ordering) (global_index : Z) (* 737 *)
| Op_GlobalAtomicRmwAdd (ordering : ordering) (global_index : Z) (* 738 *)
| Op_GlobalAtomicRmwSub (ordering : ordering) (global_index : Z) (* 739 *)
| Op_GlobalAtomicRmwAnd (ordering : ordering) (global_index : Z) (* 740 *)
| Op_GlobalAtomicRmwOr (ordering : ordering) (global_index : Z) (* 741 *)
| Op_GlobalAtomicRmwXor (ordering : ordering) (global_index : Z) (* 742 *)
| Op_GlobalAtomicRmwXchg (ordering : ordering) (global_index : Z) (* 743 *)
| Op_GlobalAtomicRmwCmpxchg (ordering : ordering) (global_index : Z) (* 744 *)
| Op_TableAtomicGet (ordering : ordering) (table_index : Z) (* 745 *)
| Op_TableAtomicSet (ordering : ordering) (table_index : Z) (* 746 *)
| Op_TableAtomicRmwXchg (ordering : ordering) (table_index : Z) (* 747 *)
| Op_TableAtomicRmwCmpxchg (ordering : ordering) (table_index : Z) (* 748 *)
| Op_StructAtomicGet (ordering : ordering) (struct_type_index : Z) (field_index : Z) (* 749 *)
| Op_StructAtomicGetS (ordering : ordering) (struct_type_index : Z) (field_index : Z) (* 750 *)
| Op_StructAtomicGetU (ordering : ordering) (struct_type_index : Z) (field_index : Z) (* 751 *)
| Op_StructAtomicSet (ordering : ordering) (struct_type_index : Z) (field_index : Z) (* 752 *)
| Op_StructAtomicRmwAdd (ordering : ordering) (struct_type_index : Z) (field_index : Z) (* 753 *)
| Op_StructAtomicRmwSub (ordering : ordering) (struct_type_index : Z) (field_index : Z) (* 754 *)
| Op_StructAtomicRmwAnd (ordering : ordering) (struct_type_index : Z) (field_index : Z) (* 755 *)
| Op_StructAtomicRmwOr (ordering : ordering) (struct_type_index : Z) (field_index : Z) (* 756 *)
| Op_StructAtomicRmwXor (ordering : ordering) (struct_type_index : Z) (field_index : Z) (* 757 *)
| Op_StructAtomicRmwXchg (ordering : ordering) (struct_type_index : Z) (field_index : Z) (* 758 *)
| Op_StructAtomicRmwCmpxchg (ordering : ordering) (struct_type_index : Z) (field_index : Z) (* 759 *)
| Op_ArrayAtomicGet (ordering : ordering) (array_type_index : Z) (* 760 *)
| Op_ArrayAtomicGetS (ordering : ordering) (array_type_index : Z) (* 761 *)
| Op_ArrayAtomicGetU (ordering : ordering) (array_type_index : Z) (* 762 *)
| Op_ArrayAtomicSet (ordering : ordering) (array_type_index : Z) (* 763 *)
| Op_ArrayAtomicRmwAdd (ordering : ordering) (array_type_index : Z) (* 764 *)
| Op_ArrayAtomicRmwSub (ordering : ordering) (array_type_index : Z) (* 765 *)
| Op_ArrayAtomicRmwAnd (ordering : ordering) (array_type_index : Z) (* 766 *)
| Op_ArrayAtomicRmwOr (ordering : ordering) (array_type_index : Z) (* 767 *)
| Op_ArrayAtomicRmwXor (ordering : ordering) (array_type_index : Z) (* 768 *)
| Op_ArrayAtomicRmwXchg (ordering : ordering) (array_type_index : Z) (* 769 *)
| Op_ArrayAtomicRmwCmpxchg (ordering : ordering) (array_type_index : Z) (* 770 *)
| Op_RefI31Shared (* 771 *)
| Op_CallRef (type_index : Z) (* 776 *)
| Op_ReturnCallRef (type_index : Z) (* 777 *)
| Op_RefAsNonNull (* 778 *)
| Op_BrOnNull (relative_depth : Z) (* 779 *)
| Op_BrOnNonNull (relative_depth : Z) (* 780 *)
| Op_ContNew (cont_type_index : Z) (* 785 *)
| Op_ContBind (argument_index : Z) (result_index : Z) (* 786 *)
| Op_Suspend (tag_index : Z) (* 787 *)
| Op_Resume (cont_type_index : Z) (resume_table : list handle) (* 788 *)
| Op_ResumeThrow (cont_type_index : Z) (tag_index : Z) (resume_table : list handle) (* 789 *)
| Op_ResumeThrowRef (cont_type_index : Z) (resume_table : list handle) (* 790 *)
| Op_Switch (cont_type_index : Z) (tag_index : Z) (* 791 *)
| Op_I64Add128 (* 795 *)
| Op_I64Sub128 (* 796 *)
| Op_I64MulWideS (* 797 *)
| Op_I64MulWideU (* 798 *)
.

(** [enum Instruction] of wasm-encoder (code.rs:460-1339); lines on the right. *)
Inductive instr :=
| In_Unreachable (* 462 *)
| In_Nop (* 463 *)
| In_Block (a0 : e_block) (* 464 *)
| In_Loop (a0 : e_block) (* 465 *)
| In_If (a0 : e_block) (* 466 *)
| In_Else (* 467 *)
| In_End (* 468 *)
| In_Br (a0 : Z) (* 469 *)
| In_BrIf (a0 : Z) (* 470 *)
| In_BrTable (a0 : list Z) (a1 : Z) (* 471 *)
| In_BrOnNull (a0 : Z) (* 472 *)
| In_BrOnNonNull (a0 : Z) (* 473 *)
| In_Return (* 474 *)
| In_Call (a0 : Z) (* 475 *)
| In_CallRef (a0 : Z) (* 476 *)
| In_CallIndirect (type_index : Z) (table_index : Z) (* 477 *)
| In_ReturnCallRef (a0 : Z) (* 481 *)
| In_ReturnCall (a0 : Z) (* 482 *)
| In_ReturnCallIndirect (type_index : Z) (table_index : Z) (* 483 *)
| In_TryTable (a0 : e_block) (a1 : list catch) (* 487 *)
| In_Throw (a0 : Z) (* 488 *)
| In_ThrowRef (* 489 *)
| In_Try (a0 : e_block) (* 492 *)
| In_Delegate (a0 : Z) (* 493 *)
| In_Catch (a0 : Z) (* 494 *)
| In_CatchAll (* 495 *)
| In_Rethrow (a0 : Z) (* 496 *)
| In_Drop (* 499 *)
| In_Select (* 500 *)
| In_LocalGet (a0 : Z) (* 503 *)
| In_LocalSet (a0 : Z) (* 504 *)
| In_LocalTee (a0 : Z) (* 505 *)
| In_GlobalGet (a0 : Z) (* 506 *)
| In_GlobalSet (a0 : Z) (* 507 *)
| In_I32Load (a0 : e_memarg) (* 510 *)
| In_I64Load (a0 : e_memarg) (* 511 *)
| In_F32Load (a0 : e_memarg) (* 512 *)
| In_F64Load (a0 : e_memarg) (* 513 *)
| In_I32Load8S (a0 : e_memarg) (* 514 *)
| In_I32Load8U (a0 : e_memarg) (* 515 *)
| In_I32Load16S (a0 : e_memarg) (* 516 *)
| In_I32Load16U (a0 : e_memarg) (* 517 *)
| In_I64Load8S (a0 : e_memarg) (* 518 *)
| In_I64Load8U (a0 : e_memarg) (* 519 *)
| In_I64Load16S (a0 : e_memarg) (* 520 *)
| In_I64Load16U (a0 : e_memarg) (* 521 *)
| In_I64Load32S (a0 : e_memarg) (* 522 *)
| In_I64Load32U (a0 : e_memarg) (* 523 *)
| In_I32Store (a0 : e_memarg) (* 524 *)
| In_I64Store (a0 : e_memarg) (* 525 *)
| In_F32Store (a0 : e_memarg) (* 526 *)
| In_F64Store (a0 : e_memarg) (* 527 *)
| In_I32Store8 (a0 : e_memarg) (* 528 *)
| In_I32Store16 (a0 : e_memarg) (* 529 *)
| In_I64Store8 (a0 : e_memarg) (* 530 *)
| In_I64Store16 (a0 : e_memarg) (* 531 *)
| In_I64Store32 (a0 : e_memarg) (* 532 *)
| In_MemorySize (a0 : Z) (* 533 *)
| In_MemoryGrow (a0 : Z) (* 534 *)
| In_MemoryInit (mem : Z) (data_index : Z) (* 535 *)
| In_DataDrop (a0 : Z) (* 539 *)
| In_MemoryCopy (src_mem : Z) (dst_mem : Z) (* 540 *)
| In_MemoryFill (a0 : Z) (* 544 *)
| In_MemoryDiscard (a0 : Z) (* 545 *)
| In_I32Const (a0 : Z) (* 548 *)
| In_I64Const (a0 : Z) (* 549 *)
| In_F32Const (a0 : Z) (* 550 *)
| In_F64Const (a0 : Z) (* 551 *)
| In_I32Eqz (* 552 *)
| In_I32Eq (* 553 *)
| In_I32Ne (* 554 *)
| In_I32LtS (* 555 *)
| In_I32LtU (* 556 *)
| In_I32GtS (* 557 *)
| In_I32GtU (* 558 *)
| In_I32LeS (* 559 *)
| In_I32LeU (* 560 *)
| In_I32GeS (* 561 *)
| In_I32GeU (* 562 *)
| In_I64Eqz (* 563 *)
| In_I64Eq (* 564 *)
| In_I64Ne (* 565 *)
| In_I64LtS (* 566 *)
| In_I64LtU (* 567 *)
| In_I64GtS (* 568 *)
| In_I64GtU (* 569 *)
| In_I64LeS (* 570 *)
| In_I64LeU (* 571 *)
| In_I64GeS (* 572 *)
| In_I64GeU (* 573 *)
| In_F32Eq (* 574 *)
| In_F32Ne (* 575 *)
| In_F32Lt (* 576 *)
| In_F32Gt (* 577 *)
| In_F32Le (* 578 *)
| In_F32Ge (* 579 *)
| In_F64Eq (* 580 *)
| In_F64Ne (* 581 *)
| In_F64Lt (* 582 *)
| In_F64Gt (* 583 *)
| In_F64Le (* 584 *)
| In_F64Ge (* 585 *)
| In_I32Clz (* 586 *)
| In_I32Ctz (* 587 *)
| In_I32Popcnt (* 588 *)
| In_I32Add (* 589 *)
| In_I32Sub (* 590 *)
| In_I32Mul (* 591 *)
| In_I32DivS (* 592 *)
| In_I32DivU (* 593 *)
| In_I32RemS (* 594 *)
| In_I32RemU (* 595 *)
| In_I32And (* 596 *)
| In_I32Or (* 597 *)
| In_I32Xor (* 598 *)
| In_I32Shl (* 599 *)
| In_I32ShrS (* 600 *)
| In_I32ShrU (* 601 *)
| In_I32Rotl (* 602 *)
| In_I32Rotr (* 603 *)
| In_I64Clz (* 604 *)
| In_I64Ctz (* 605 *)
| In_I64Popcnt (* 606 *)
| In_I64Add (* 607 *)
| In_I64Sub (* 608 *)
| In_I64Mul (* 609 *)
| In_I64DivS (* 610 *)
| In_I64DivU (* 611 *)
| In_I64RemS (* 612 *)
| In_I64RemU (* 613 *)
| In_I64And (* 614 *)
| In_I64Or (* 615 *)
| In_I64Xor (* 616 *)
| In_I64Shl (* 617 *)
| In_I64ShrS (* 618 *)
| In_I64ShrU (* 619 *)
| In_I64Rotl (* 620 *)
| In_I64Rotr (* 621 *)
| In_F32Abs (* 622 *)
| In_F32Neg (* 623 *)
| In_F32Ceil (* 624 *)
| In_F32Floor (* 625 *)
| In_F32Trunc (* 626 *)
| In_F32Nearest (* 627 *)
| In_F32Sqrt (* 628 *)
| In_F32Add (* 629 *)
| In_F32Sub (* 630 *)
| In_F32Mul (* 631 *)
| In_F32Div (* 632 *)
| In_F32Min (* 633 *)
| In_F32Max (* 634 *)
| In_F32Copysign (* 635 *)
| In_F64Abs (* 636 *)
| In_F64Neg (* 637 *)
| In_F64Ceil (* 638 *)
| In_F64Floor (* 639 *)
| In_F64Trunc (* 640 *)
| In_F64Nearest (* 641 *)
| In_F64Sqrt (* 642 *)
| In_F64Add (* 643 *)
| In_F64Sub (* 644 *)
| In_F64Mul (* 645 *)
| In_F64Div (* 646 *)
| In_F64Min (* 647 *)
| In_F64Max (* 648 *)
| In_F64Copysign (* 649 *)
| In_I32WrapI64 (* 650 *)
| In_I32TruncF32S (* 651 *)
| In_I32TruncF32U (* 652 *)
| In_I32TruncF64S (* 653 *)
| In_I32TruncF64U (* 654 *)
| In_I64ExtendI32S (* 655 *)
| In_I64ExtendI32U (* 656 *)
| In_I64TruncF32S (* 657 *)
| In_I64TruncF32U (* 658 *)
| In_I64TruncF64S (* 659 *)
| In_I64TruncF64U (* 660 *)
| In_F32ConvertI32S (* 661 *)
| In_F32ConvertI32U (* 662 *)
| In_F32ConvertI64S (* 663 *)
| In_F32ConvertI64U (* 664 *)
| In_F32DemoteF64 (* 665 *)
| In_F64ConvertI32S (* 666 *)
| In_F64ConvertI32U (* 667 *)
| In_F64ConvertI64S (* 668 *)
| In_F64ConvertI64U (* 669 *)
| In_F64PromoteF32 (* 670 *)
| In_I32ReinterpretF32 (* 671 *)
| In_I64ReinterpretF64 (* 672 *)
| In_F32ReinterpretI32 (* 673 *)
| In_F64ReinterpretI64 (* 674 *)
| In_I32Extend8S (* 675 *)
| In_I32Extend16S (* 676 *)
| In_I64Extend8S (* 677 *)
| In_I64Extend16S (* 678 *)
| In_I64Extend32S (* 679 *)
| In_I32TruncSatF32S (* 680 *)
| In_I32TruncSatF32U (* 681 *)
| In_I32TruncSatF64S (* 682 *)
| In_I32TruncSatF64U (* 683 *)
| In_I64TruncSatF32S (* 684 *)
| In_I64TruncSatF32U (* 685 *)
| In_I64TruncSatF64S (* 686 *)
| In_I64TruncSatF64U (* 687 *)
| In_TypedSelect (a0 : e_val) (* 690 *)
| In_TypedSelectMulti (a0 : list e_val) (* 691 *)
| In_RefNull (a0 : e_heap) (* 692 *)
| In_RefIsNull (* 693 *)
| In_RefFunc (a0 : Z) (* 694 *)
| In_RefEq (* 695 *)
| In_RefAsNonNull (* 696 *)
| In_StructNew (a0 : Z) (* 699 *)
| In_StructNewDefault (a0 : Z) (* 700 *)
| In_StructGet (struct_type_index : Z) (field_index : Z) (* 701 *)
| In_StructGetS (struct_type_index : Z) (field_index : Z) (* 705 *)
| In_StructGetU (struct_type_index : Z) (field_index : Z) (* 709 *)
| In_StructSet (struct_type_index : Z) (field_index : Z) (* 713 *)
| In_StructNewDesc (a0 : Z) (* 717 *)
| In_StructNewDefaultDesc (a0 : Z) (* 718 *)
| In_ArrayNew (a0 : Z) (* 720 *)
| In_ArrayNewDefault (a0 : Z) (* 721 *)
| In_ArrayNewFixed (array_type_index : Z) (array_size : Z) (* 722 *)
| In_ArrayNewData (array_type_index : Z) (array_data_index : Z) (* 726 *)
| In_ArrayNewElem (array_type_index : Z) (array_elem_index : Z) (* 730 *)
| In_ArrayGet (a0 : Z) (* 734 *)
| In_ArrayGetS (a0 : Z) (* 735 *)
| In_ArrayGetU (a0 : Z) (* 736 *)
| In_ArraySet (a0 : Z) (* 737 *)
| In_ArrayLen (* 738 *)
| In_ArrayFill (a0 : Z) (* 739 *)
| In_ArrayCopy (array_type_index_dst : Z) (array_type_index_src : Z) (* 740 *)
| In_ArrayInitData (array_type_index : Z) (array_data_index : Z) (* 744 *)
| In_ArrayInitElem (array_type_index : Z) (array_elem_index : Z) (* 748 *)
| In_RefTestNonNull (a0 : e_heap) (* 752 *)
| In_RefTestNullable (a0 : e_heap) (* 753 *)
| In_RefCastNonNull (a0 : e_heap) (* 754 *)
| In_RefCastNullable (a0 : e_heap) (* 755 *)
| In_BrOnCast (relative_depth : Z) (from_ref_type : e_ref) (to_ref_type : e_ref) (* 756 *)
| In_BrOnCastFail (relative_depth : Z) (from_ref_type : e_ref) (to_ref_type : e_ref) (* 761 *)
| In_AnyConvertExtern (* 766 *)
| In_ExternConvertAny (* 767 *)
| In_RefI31 (* 769 *)
| In_I31GetS (* 770 *)
| In_I31GetU (* 771 *)
| In_TableInit (elem_index : Z) (table : Z) (* 774 *)
| In_ElemDrop (a0 : Z) (* 778 *)
| In_TableFill (a0 : Z) (* 779 *)
| In_TableSet (a0 : Z) (* 780 *)
| In_TableGet (a0 : Z) (* 781 *)
| In_TableGrow (a0 : Z) (* 782 *)
| In_TableSize (a0 : Z) (* 783 *)
| In_TableCopy (src_table : Z) (dst_table : Z) (* 784 *)
| In_V128Load (a0 : e_memarg) (* 790 *)
| In_V128Load8x8S (a0 : e_memarg) (* 791 *)
| In_V128Load8x8U (a0 : e_memarg) (* 792 *)
| In_V128Load16x4S (a0 : e_memarg) (* 793 *)
| In_V128Load16x4U (a0 : e_memarg) (* 794 *)
| In_V128Load32x2S (a0 : e_memarg) (* 795 *)
| In_V128Load32x2U (a0 : e_memarg) (* 796 *)
| In_V128Load8Splat (a0 : e_memarg) (* 797 *)
| In_V128Load16Splat (a0 : e_memarg) (* 798 *)
| In_V128Load32Splat (a0 : e_memarg) (* 799 *)
| In_V128Load64Splat (a0 : e_memarg) (* 800 *)
| In_V128Load32Zero (a0 : e_memarg) (* 801 *)
| In_V128Load64Zero (a0 : e_memarg) (* 802 *)
| In_V128Store (a0 : e_memarg) (* 803 *)
| In_V128Load8Lane (memarg : e_memarg) (lane : Z) (* 804 *)
| In_V128Load16Lane (memarg : e_memarg) (lane : Z) (* 808 *)
| In_V128Load32Lane (memarg : e_memarg) (lane : Z) (* 812 *)
| In_V128Load64Lane (memarg : e_memarg) (lane : Z) (* 816 *)
| In_V128Store8Lane (memarg : e_memarg) (lane : Z) (* 820 *)
| In_V128Store16Lane (memarg : e_memarg) (lane : Z) (* 824 *)
| In_V128Store32Lane (memarg : e_memarg) (lane : Z) (* 828 *)
| In_V128Store64Lane (memarg : e_memarg) (lane : Z) (* 832 *)
| In_V128Const (a0 : Z) (* 836 *)
| In_I8x16Shuffle (a0 : list Z) (* 837 *)
| In_I8x16ExtractLaneS (a0 : Z) (* 838 *)
| In_I8x16ExtractLaneU (a0 : Z) (* 839 *)
| In_I8x16ReplaceLane (a0 : Z) (* 840 *)
| In_I16x8ExtractLaneS (a0 : Z) (* 841 *)
| In_I16x8ExtractLaneU (a0 : Z) (* 842 *)
| In_I16x8ReplaceLane (a0 : Z) (* 843 *)
| In_I32x4ExtractLane (a0 : Z) (* 844 *)
| In_I32x4ReplaceLane (a0 : Z) (* 845 *)
| In_I64x2ExtractLane (a0 : Z) (* 846 *)
| In_I64x2ReplaceLane (a0 : Z) (* 847 *)
| In_F32x4ExtractLane (a0 : Z) (* 848 *)
| In_F32x4ReplaceLane (a0 : Z) (* 849 *)
| In_F64x2ExtractLane (a0 : Z) (* 850 *)
| In_F64x2ReplaceLane (a0 : Z) (* 851 *)
| In_I8x16Swizzle (* 852 *)
| In_I8x16Splat (* 853 *)
| In_I16x8Splat (* 854 *)
| In_I32x4Splat (* 855 *)
| In_I64x2Splat (* 856 *)
| In_F32x4Splat (* 857 *)
| In_F64x2Splat (* 858 *)
| In_I8x16Eq (* 859 *)
| In_I8x16Ne (* 860 *)
| In_I8x16LtS (* 861 *)
| In_I8x16LtU (* 862 *)
| In_I8x16GtS (* 863 *)
| In_I8x16GtU (* 864 *)
| In_I8x16LeS (* 865 *)
| In_I8x16LeU (* 866 *)
| In_I8x16GeS (* 867 *)
| In_I8x16GeU (* 868 *)
| In_I16x8Eq (* 869 *)
| In_I16x8Ne (* 870 *)
| In_I16x8LtS (* 871 *)
| In_I16x8LtU (* 872 *)
| In_I16x8GtS (* 873 *)
| In_I16x8GtU (* 874 *)
| In_I16x8LeS (* 875 *)
| In_I16x8LeU (* 876 *)
| In_I16x8GeS (* 877 *)
| In_I16x8GeU (* 878 *)
| In_I32x4Eq (* 879 *)
| In_I32x4Ne (* 880 *)
| In_I32x4LtS (* 881 *)
| In_I32x4LtU (* 882 *)
| In_I32x4GtS (* 883 *)
| In_I32x4GtU (* 884 *)
| In_I32x4LeS (* 885 *)
| In_I32x4LeU (* 886 *)
| In_I32x4GeS (* 887 *)
| In_I32x4GeU (* 888 *)
| In_I64x2Eq (* 889 *)
| In_I64x2Ne (* 890 *)
| In_I64x2LtS (* 891 *)
| In_I64x2GtS (* 892 *)
| In_I64x2LeS (* 893 *)
| In_I64x2GeS (* 894 *)
| In_F32x4Eq (* 895 *)
| In_F32x4Ne (* 896 *)
| In_F32x4Lt (* 897 *)
| In_F32x4Gt (* 898 *)
| In_F32x4Le (* 899 *)
| In_F32x4Ge (* 900 *)
| In_F64x2Eq (* 901 *)
| In_F64x2Ne (* 902 *)
| In_F64x2Lt (* 903 *)
| In_F64x2Gt (* 904 *)
| In_F64x2Le (* 905 *)
| In_F64x2Ge (* 906 *)
| In_V128Not (* 907 *)
| In_V128And (* 908 *)
| In_V128AndNot (* 909 *)
| In_V128Or (* 910 *)
| In_V128Xor (* 911 *)
| In_V128Bitselect (* 912 *)
| In_V128AnyTrue (* 913 *)
| In_I8x16Abs (* 914 *)
| In_I8x16Neg (* 915 *)
| In_I8x16Popcnt (* 916 *)
| In_I8x16AllTrue (* 917 *)
| In_I8x16Bitmask (* 918 *)
| In_I8x16NarrowI16x8S (* 919 *)
| In_I8x16NarrowI16x8U (* 920 *)
| In_I8x16Shl (* 921 *)
| In_I8x16ShrS (* 922 *)
| In_I8x16ShrU (* 923 *)
| In_I8x16Add (* 924 *)
| In_I8x16AddSatS (* 925 *)
| In_I8x16AddSatU (* 926 *)
| In_I8x16Sub (* 927 *)
| In_I8x16SubSatS (* 928 *)
| In_I8x16SubSatU (* 929 *)
| In_I8x16MinS (* 930 *)
| In_I8x16MinU (* 931 *)
| In_I8x16MaxS (* 932 *)
| In_I8x16MaxU (* 933 *)
| In_I8x16AvgrU (* 934 *)
| In_I16x8ExtAddPairwiseI8x16S (* 935 *)
| In_I16x8ExtAddPairwiseI8x16U (* 936 *)
| In_I16x8Abs (* 937 *)
| In_I16x8Neg (* 938 *)
| In_I16x8Q15MulrSatS (* 939 *)
| In_I16x8AllTrue (* 940 *)
| In_I16x8Bitmask (* 941 *)
| In_I16x8NarrowI32x4S (* 942 *)
| In_I16x8NarrowI32x4U (* 943 *)
| In_I16x8ExtendLowI8x16S (* 944 *)
| In_I16x8ExtendHighI8x16S (* 945 *)
| In_I16x8ExtendLowI8x16U (* 946 *)
| In_I16x8ExtendHighI8x16U (* 947 *)
| In_I16x8Shl (* 948 *)
| In_I16x8ShrS (* 949 *)
| In_I16x8ShrU (* 950 *)
| In_I16x8Add (* 951 *)
| In_I16x8AddSatS (* 952 *)
| In_I16x8AddSatU (* 953 *)
| In_I16x8Sub (* 954 *)
| In_I16x8SubSatS (* 955 *)
| In_I16x8SubSatU (* 956 *)
| In_I16x8Mul (* 957 *)
| In_I16x8MinS (* 958 *)
| In_I16x8MinU (* 959 *)
| In_I16x8MaxS (* 960 *)
| In_I16x8MaxU (* 961 *)
| In_I16x8AvgrU (* 962 *)
| In_I16x8ExtMulLowI8x16S (* 963 *)
| In_I16x8ExtMulHighI8x16S (* 964 *)
| In_I16x8ExtMulLowI8x16U (* 965 *)
| In_I16x8ExtMulHighI8x16U (* 966 *)
| In_I32x4ExtAddPairwiseI16x8S (* 967 *)
| In_I32x4ExtAddPairwiseI16x8U (* 968 *)
| In_I32x4Abs (* 969 *)
| In_I32x4Neg (* 970 *)
| In_I32x4AllTrue (* 971 *)
| In_I32x4Bitmask (* 972 *)
| In_I32x4ExtendLowI16x8S (* 973 *)
| In_I32x4ExtendHighI16x8S (* 974 *)
| In_I32x4ExtendLowI16x8U (* 975 *)
| In_I32x4ExtendHighI16x8U (* 976 *)
| In_I32x4Shl (* 977 *)
| In_I32x4ShrS (* 978 *)
| In_I32x4ShrU (* 979 *)
| In_I32x4Add (* 980 *)
| In_I32x4Sub (* 981 *)
| In_I32x4Mul (* 982 *)
| In_I32x4MinS (* 983 *)
| In_I32x4MinU (* 984 *)
| In_I32x4MaxS (* 985 *)
| In_I32x4MaxU (* 986 *)
| In_I32x4DotI16x8S (* 987 *)
| In_I32x4ExtMulLowI16x8S (* 988 *)
| In_I32x4ExtMulHighI16x8S (* 989 *)
| In_I32x4ExtMulLowI16x8U (* 990 *)
| In_I32x4ExtMulHighI16x8U (* 991 *)
| In_I64x2Abs (* 992 *)
| In_I64x2Neg (* 993 *)
| In_I64x2AllTrue (* 994 *)
| In_I64x2Bitmask (* 995 *)
| In_I64x2ExtendLowI32x4S (* 996 *)
| In_I64x2ExtendHighI32x4S (* 997 *)
| In_I64x2ExtendLowI32x4U (* 998 *)
| In_I64x2ExtendHighI32x4U (* 999 *)
| In_I64x2Shl (* 1000 *)
| In_I64x2ShrS (* 1001 *)
| In_I64x2ShrU (* 1002 *)
| In_I64x2Add (* 1003 *)
| In_I64x2Sub (* 1004 *)
| In_I64x2Mul (* 1005 *)
| In_I64x2ExtMulLowI32x4S (* 1006 *)
| In_I64x2ExtMulHighI32x4S (* 1007 *)
| In_I64x2ExtMulLowI32x4U (* 1008 *)
| In_I64x2ExtMulHighI32x4U (* 1009 *)
| In_F32x4Ceil (* 1010 *)
| In_F32x4Floor (* 1011 *)
| In_F32x4Trunc (* 1012 *)
| In_F32x4Nearest (* 1013 *)
| In_F32x4Abs (* 1014 *)
| In_F32x4Neg (* 1015 *)
| In_F32x4Sqrt (* 1016 *)
| In_F32x4Add (* 1017 *)
| In_F32x4Sub (* 1018 *)
| In_F32x4Mul (* 1019 *)
| In_F32x4Div (* 1020 *)
| In_F32x4Min (* 1021 *)
| In_F32x4Max (* 1022 *)
| In_F32x4PMin (* 1023 *)
| In_F32x4PMax (* 1024 *)
| In_F64x2Ceil (* 1025 *)
| In_F64x2Floor (* 1026 *)
| In_F64x2Trunc (* 1027 *)
| In_F64x2Nearest (* 1028 *)
| In_F64x2Abs (* 1029 *)
| In_F64x2Neg (* 1030 *)
| In_F64x2Sqrt (* 1031 *)
| In_F64x2Add (* 1032 *)
| In_F64x2Sub (* 1033 *)
| In_F64x2Mul (* 1034 *)
| In_F64x2Div (* 1035 *)
| In_F64x2Min (* 1036 *)
| In_F64x2Max (* 1037 *)
| In_F64x2PMin (* 1038 *)
| In_F64x2PMax (* 1039 *)
| In_I32x4TruncSatF32x4S (* 1040 *)
| In_I32x4TruncSatF32x4U (* 1041 *)
| In_F32x4ConvertI32x4S (* 1042 *)
| In_F32x4ConvertI32x4U (* 1043 *)
| In_I32x4TruncSatF64x2SZero (* 1044 *)
| In_I32x4TruncSatF64x2UZero (* 1045 *)
| In_F64x2ConvertLowI32x4S (* 1046 *)
| In_F64x2ConvertLowI32x4U (* 1047 *)
| In_F32x4DemoteF64x2Zero (* 1048 *)
| In_F64x2PromoteLowF32x4 (* 1049 *)
| In_I8x16RelaxedSwizzle (* 1052 *)
| In_I32x4RelaxedTruncF32x4S (* 1053 *)
| In_I32x4RelaxedTruncF32x4U (* 1054 *)
| In_I32x4RelaxedTruncF64x2SZero (* 1055 *)
| In_I32x4RelaxedTruncF64x2UZero (* 1056 *)
| In_F32x4RelaxedMadd (* 1057 *)
| In_F32x4RelaxedNmadd (* 1058 *)
| In_F64x2RelaxedMadd (* 1059 *)
| In_F64x2RelaxedNmadd (* 1060 *)
| In_I8x16RelaxedLaneselect (* 1061 *)
| In_I16x8RelaxedLaneselect (* 1062 *)
| In_I32x4RelaxedLaneselect (* 1063 *)
| In_I64x2RelaxedLaneselect (* 1064 *)
| In_F32x4RelaxedMin (* 1065 *)
| In_F32x4RelaxedMax (* 1066 *)
| In_F64x2RelaxedMin (* 1067 *)
| In_F64x2RelaxedMax (* 1068 *)
| In_I16x8RelaxedQ15mulrS (* 1069 *)
| In_I16x8RelaxedDotI8x16I7x16S (* 1070 *)
| In_I32x4RelaxedDotI8x16I7x16AddS (* 1071 *)
| In_MemoryAtomicNotify (a0 : e_memarg) (* 1074 *)
| In_MemoryAtomicWait32 (a0 : e_memarg) (* 1075 *)
| In_MemoryAtomicWait64 (a0 : e_memarg) (* 1076 *)
| In_AtomicFence (* 1077 *)
| In_I32AtomicLoad (a0 : e_memarg) (* 1078 *)
| In_I64AtomicLoad (a0 : e_memarg) (* 1079 *)
| In_I32AtomicLoad8U (a0 : e_memarg) (* 1080 *)
| In_I32AtomicLoad16U (a0 : e_memarg) (* 1081 *)
| In_I64AtomicLoad8U (a0 : e_memarg) (* 1082 *)
| In_I64AtomicLoad16U (a0 : e_memarg) (* 1083 *)
| In_I64AtomicLoad32U (a0 : e_memarg) (* 1084 *)
| In_I32AtomicStore (a0 : e_memarg) (* 1085 *)
| In_I64AtomicStore (a0 : e_memarg) (* 1086 *)
| In_I32AtomicStore8 (a0 : e_memarg) (* 1087 *)
| In_I32AtomicStore16 (a0 : e_memarg) (* 1088 *)
| In_I64AtomicStore8 (a0 : e_memarg) (* 1089 *)
| In_I64AtomicStore16 (a0 : e_memarg) (* 1090 *)
| In_I64AtomicStore32 (a0 : e_memarg) (* 1091 *)
| In_I32AtomicRmwAdd (a0 : e_memarg) (* 1092 *)
| In_I64AtomicRmwAdd (a0 : e_memarg) (* 1093 *)
| In_I32AtomicRmw8AddU (a0 : e_memarg) (* 1094 *)
| In_I32AtomicRmw16AddU (a0 : e_memarg) (* 1095 *)
| In_I64AtomicRmw8AddU (a0 : e_memarg) (* 1096 *)
| In_I64AtomicRmw16AddU (a0 : e_memarg) (* 1097 *)
| In_I64AtomicRmw32AddU (a0 : e_memarg) (* 1098 *)
| In_I32AtomicRmwSub (a0 : e_memarg) (* 1099 *)
| In_I64AtomicRmwSub (a0 : e_memarg) (* 1100 *)
| In_I32AtomicRmw8SubU (a0 : e_memarg) (* 1101 *)
| In_I32AtomicRmw16SubU (a0 : e_memarg) (* 1102 *)
| In_I64AtomicRmw8SubU (a0 : e_memarg) (* 1103 *)
| In_I64AtomicRmw16SubU (a0 : e_memarg) (* 1104 *)
| In_I64AtomicRmw32SubU (a0 : e_memarg) (* 1105 *)
| In_I32AtomicRmwAnd (a0 : e_memarg) (* 1106 *)
| In_I64AtomicRmwAnd (a0 : e_memarg) (* 1107 *)
| In_I32AtomicRmw8AndU (a0 : e_memarg) (* 1108 *)
| In_I32AtomicRmw16AndU (a0 : e_memarg) (* 1109 *)
| In_I64AtomicRmw8AndU (a0 : e_memarg) (* 1110 *)
| In_I64AtomicRmw16AndU (a0 : e_memarg) (* 1111 *)
| In_I64AtomicRmw32AndU (a0 : e_memarg) (* 1112 *)
| In_I32AtomicRmwOr (a0 : e_memarg) (* 1113 *)
| In_I64AtomicRmwOr (a0 : e_memarg) (* 1114 *)
| In_I32AtomicRmw8OrU (a0 : e_memarg) (* 1115 *)
| In_I32AtomicRmw16OrU (a0 : e_memarg) (* 1116 *)
| In_I64AtomicRmw8OrU (a0 : e_memarg) (* 1117 *)
| In_I64AtomicRmw16OrU (a0 : e_memarg) (* 1118 *)
| In_I64AtomicRmw32OrU (a0 : e_memarg) (* 1119 *)
| In_I32AtomicRmwXor (a0 : e_memarg) (* 1120 *)
| In_I64AtomicRmwXor (a0 : e_memarg) (* 1121 *)
| In_I32AtomicRmw8XorU (a0 : e_memarg) (* 1122 *)
| In_I32AtomicRmw16XorU (a0 : e_memarg) (* 1123 *)
| In_I64AtomicRmw8XorU (a0 : e_memarg) (* 1124 *)
| In_I64AtomicRmw16XorU (a0 : e_memarg) (* 1125 *)
| In_I64AtomicRmw32XorU (a0 : e_memarg) (* 1126 *)
| In_I32AtomicRmwXchg (a0 : e_memarg) (* 1127 *)
| In_I64AtomicRmwXchg (a0 : e_memarg) (* 1128 *)
| In_I32AtomicRmw8XchgU (a0 : e_memarg) (* 1129 *)
| In_I32AtomicRmw16XchgU (a0 : e_memarg) (* 1130 *)
| In_I64AtomicRmw8XchgU (a0 : e_memarg) (* 1131 *)
| In_I64AtomicRmw16XchgU (a0 : e_memarg) (* 1132 *)
| In_I64AtomicRmw32XchgU (a0 : e_memarg) (* 1133 *)
| In_I32AtomicRmwCmpxchg (a0 : e_memarg) (* 1134 *)
| In_I64AtomicRmwCmpxchg (a0 : e_memarg) (* 1135 *)
| In_I32AtomicRmw8CmpxchgU (a0 : e_memarg) (* 1136 *)
| In_I32AtomicRmw16CmpxchgU (a0 : e_memarg) (* 1137 *)
| In_I64AtomicRmw8CmpxchgU (a0 : e_memarg) (* 1138 *)
| In_I64AtomicRmw16CmpxchgU (a0 : e_memarg) (* 1139 *)
| In_I64AtomicRmw32CmpxchgU (a0 : e_memarg) (* 1140 *)
| In_GlobalAtomicGet (ordering : ordering) (global_index : Z) (* 1143 *)
| In_GlobalAtomicSet (ordering : ordering) (global_index : Z) (* 1147 *)
| In_GlobalAtomicRmwAdd (ordering : ordering) (global_index : Z) (* 1151 *)
| In_GlobalAtomicRmwSub (ordering : ordering) (global_index : Z) (* 1155 *)
| In_GlobalAtomicRmwAnd (ordering : ordering) (global_index : Z) (* 1159 *)
| In_GlobalAtomicRmwOr (ordering : ordering) (global_index : Z) (* 1163 *)
| In_GlobalAtomicRmwXor (ordering : ordering) (global_index : Z) (* 1167 *)
| In_GlobalAtomicRmwXchg (ordering : ordering) (global_index : Z) (* 1171 *)
| In_GlobalAtomicRmwCmpxchg (ordering : ordering) (global_index : Z) (* 1175 *)
| In_TableAtomicGet (ordering : ordering) (table_index : Z) (* 1179 *)
| In_TableAtomicSet (ordering : ordering) (table_index : Z) (* 1183 *)
| In_TableAtomicRmwXchg (ordering : ordering) (table_index : Z) (* 1187 *)
| In_TableAtomicRmwCmpxchg (ordering : ordering) (table_index : Z) (* 1191 *)
| In_StructAtomicGet (ordering : ordering) (struct_type_index : Z) (field_index : Z) (* 1195 *)
| In_StructAtomicGetS (ordering : ordering) (struct_type_index : Z) (field_index : Z) (* 1200 *)
| In_StructAtomicGetU (ordering : ordering) (struct_type_index : Z) (field_index : Z) (* 1205 *)
| In_StructAtomicSet (ordering : ordering) (struct_type_index : Z) (field_index : Z) (* 1210 *)
| In_StructAtomicRmwAdd (ordering : ordering) (struct_type_index : Z) (field_index : Z) (* 1215 *)
| In_StructAtomicRmwSub (ordering : ordering) (struct_type_index : Z) (field_index : Z) (* 1220 *)
| In_StructAtomicRmwAnd (ordering : ordering) (struct_type_index : Z) (field_index : Z) (* 1225 *)
| In_StructAtomicRmwOr (ordering : ordering) (struct_type_index : Z) (field_index : Z) (* 1230 *)
| In_StructAtomicRmwXor (ordering : ordering) (struct_type_index : Z) (field_index : Z) (* 1235 *)
| In_StructAtomicRmwXchg (ordering : ordering) (struct_type_index : Z) (field_index : Z) (* 1240 *)
| In_StructAtomicRmwCmpxchg (ordering : ordering) (struct_type_index : Z) (field_index : Z) (* 1245 *)
| In_ArrayAtomicGet (ordering : ordering) (array_type_index : Z) (* 1250 *)
| In_ArrayAtomicGetS (ordering : ordering) (array_type_index : Z) (* 1254 *)
| In_ArrayAtomicGetU (ordering : ordering) (array_type_index : Z) (* 1258 *)
| In_ArrayAtomicSet (ordering : ordering) (array_type_index : Z) (* 1262 *)
| In_ArrayAtomicRmwAdd (ordering : ordering) (array_type_index : Z) (* 1266 *)
| In_ArrayAtomicRmwSub (ordering : ordering) (array_type_index : Z) (* 1270 *)
| In_ArrayAtomicRmwAnd (ordering : ordering) (array_type_index : Z) (* 1274 *)
| In_ArrayAtomicRmwOr (ordering : ordering) (array_type_index : Z) (* 1278 *)
| In_ArrayAtomicRmwXor (ordering : ordering) (array_type_index : Z) (* 1282 *)
| In_ArrayAtomicRmwXchg (ordering : ordering) (array_type_index : Z) (* 1286 *)
| In_ArrayAtomicRmwCmpxchg (ordering : ordering) (array_type_index : Z) (* 1290 *)
| In_RefI31Shared (* 1294 *)
| In_ContNew (a0 : Z) (* 1296 *)
| In_ContBind (argument_index : Z) (result_index : Z) (* 1297 *)
| In_Suspend (a0 : Z) (* 1301 *)
| In_Resume (cont_type_index : Z) (resume_table : list handle) (* 1302 *)
| In_ResumeThrow (cont_type_index : Z) (tag_index : Z) (resume_table : list handle) (* 1306 *)
| In_ResumeThrowRef (cont_type_index : Z) (resume_table : list handle) (* 1311 *)
| In_Switch (cont_type_index : Z) (tag_index : Z) (* 1315 *)
| In_I64Add128 (* 1321 *)
| In_I64Sub128 (* 1322 *)
| In_I64MulWideS (* 1323 *)
| In_I64MulWideU (* 1324 *)
| In_RefGetDesc (a0 : Z) (* 1326 *)
| In_RefCastDescEqNonNull (a0 : e_heap) (* 1327 *)
| In_RefCastDescEqNullable (a0 : e_heap) (* 1328 *)
| In_BrOnCastDescEq (relative_depth : Z) (from_ref_type : e_ref) (to_ref_type : e_ref) (* 1329 *)
| In_BrOnCastDescEqFail (relative_depth : Z) (from_ref_type : e_ref) (to_ref_type : e_ref) (* 1334 *)
.
