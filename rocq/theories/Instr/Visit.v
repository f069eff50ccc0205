(** Generated by tools/gen_instr.py from crates/wasmparser/src/binary_reader.rs: do not edit. *)
From Verif.Base Require Import Prelude.
From Verif.Reader Require Import Model.
From Verif.Leb Require Import Model.
From Verif.Codec Require Import Kit.
From Verif.Types Require Import RefModel CodecModel EntityModel.
From Verif.Instr Require Import ImmModel Ops.
(* Decimal positions of the arms in binary_reader.rs are given on the right. *)

(** [visit_0xfb_operator] (binary_reader.rs:1134-1348). *)
Definition arm_fb (pos code : Z) : R operator :=
  match code with
  | 0x0 => let* type_index := read_var_u32 in ret (Op_StructNew type_index) (* 1144 *)
  | 0x01 => let* type_index := read_var_u32 in ret (Op_StructNewDefault type_index) (* 1148 *)
  | 0x02 => let* type_index := read_var_u32 in let* field_index := read_var_u32 in ret (Op_StructGet type_index field_index) (* 1152 *)
  | 0x03 => let* type_index := read_var_u32 in let* field_index := read_var_u32 in ret (Op_StructGetS type_index field_index) (* 1157 *)
  | 0x04 => let* type_index := read_var_u32 in let* field_index := read_var_u32 in ret (Op_StructGetU type_index field_index) (* 1162 *)
  | 0x05 => let* type_index := read_var_u32 in let* field_index := read_var_u32 in ret (Op_StructSet type_index field_index) (* 1167 *)
  | 0x06 => let* type_index := read_var_u32 in ret (Op_ArrayNew type_index) (* 1172 *)
  | 0x07 => let* type_index := read_var_u32 in ret (Op_ArrayNewDefault type_index) (* 1176 *)
  | 0x08 => let* type_index := read_var_u32 in let* n := read_var_u32 in ret (Op_ArrayNewFixed type_index n) (* 1180 *)
  | 0x09 => let* type_index := read_var_u32 in let* data_index := read_var_u32 in ret (Op_ArrayNewData type_index data_index) (* 1185 *)
  | 0x0a => let* type_index := read_var_u32 in let* elem_index := read_var_u32 in ret (Op_ArrayNewElem type_index elem_index) (* 1190 *)
  | 0x0b => let* type_index := read_var_u32 in ret (Op_ArrayGet type_index) (* 1195 *)
  | 0x0c => let* type_index := read_var_u32 in ret (Op_ArrayGetS type_index) (* 1199 *)
  | 0x0d => let* type_index := read_var_u32 in ret (Op_ArrayGetU type_index) (* 1203 *)
  | 0x0e => let* type_index := read_var_u32 in ret (Op_ArraySet type_index) (* 1207 *)
  | 0x0f => ret Op_ArrayLen (* 1211 *)
  | 0x10 => let* type_index := read_var_u32 in ret (Op_ArrayFill type_index) (* 1212 *)
  | 0x11 => let* type_index_dst := read_var_u32 in let* type_index_src := read_var_u32 in ret (Op_ArrayCopy type_index_dst type_index_src) (* 1216 *)
  | 0x12 => let* type_index := read_var_u32 in let* data_index := read_var_u32 in ret (Op_ArrayInitData type_index data_index) (* 1221 *)
  | 0x13 => let* type_index := read_var_u32 in let* elem_index := read_var_u32 in ret (Op_ArrayInitElem type_index elem_index) (* 1226 *)
  | 0x14 => let* hty := read_heap in ret (Op_RefTestNonNull hty) (* 1231 *)
  | 0x15 => let* hty := read_heap in ret (Op_RefTestNullable hty) (* 1232 *)
  | 0x16 => let* hty := read_heap in ret (Op_RefCastNonNull hty) (* 1233 *)
  | 0x17 => let* hty := read_heap in ret (Op_RefCastNullable hty) (* 1234 *)
  | 0x18 => let* c := read_cast in ret (Op_BrOnCast (fst (fst c)) (snd (fst c)) (snd c)) (* 1235 *)
  | 0x19 => let* c := read_cast in ret (Op_BrOnCastFail (fst (fst c)) (snd (fst c)) (snd c)) (* 1258 *)
  | 0x1a => ret Op_AnyConvertExtern (* 1282 *)
  | 0x1b => ret Op_ExternConvertAny (* 1283 *)
  | 0x1c => ret Op_RefI31 (* 1285 *)
  | 0x1d => ret Op_I31GetS (* 1286 *)
  | 0x1e => ret Op_I31GetU (* 1287 *)
  | 0x20 => let* type_index := read_var_u32 in ret (Op_StructNewDesc type_index) (* 1289 *)
  | 0x21 => let* type_index := read_var_u32 in ret (Op_StructNewDefaultDesc type_index) (* 1293 *)
  | 0x22 => let* type_index := read_var_u32 in ret (Op_RefGetDesc type_index) (* 1297 *)
  | 0x23 => let* hty := read_heap in ret (Op_RefCastDescEqNonNull hty) (* 1298 *)
  | 0x24 => let* hty := read_heap in ret (Op_RefCastDescEqNullable hty) (* 1299 *)
  | 0x25 => let* c := read_cast in ret (Op_BrOnCastDescEq (fst (fst c)) (snd (fst c)) (snd c)) (* 1300 *)
  | 0x26 => let* c := read_cast in ret (Op_BrOnCastDescEqFail (fst (fst c)) (snd (fst c)) (snd c)) (* 1323 *)
  | _ => fail_pos "unknown 0xfb subopcode" pos
  end.
Definition visit_fb (pos : Z) : R operator := let* code := read_var_u32 in arm_fb pos code.

(** [visit_0xfc_operator] (binary_reader.rs:1351-1428). *)
Definition arm_fc (pos code : Z) : R operator :=
  match code with
  | 0x00 => ret Op_I32TruncSatF32S (* 1361 *)
  | 0x01 => ret Op_I32TruncSatF32U (* 1362 *)
  | 0x02 => ret Op_I32TruncSatF64S (* 1363 *)
  | 0x03 => ret Op_I32TruncSatF64U (* 1364 *)
  | 0x04 => ret Op_I64TruncSatF32S (* 1365 *)
  | 0x05 => ret Op_I64TruncSatF32U (* 1366 *)
  | 0x06 => ret Op_I64TruncSatF64S (* 1367 *)
  | 0x07 => ret Op_I64TruncSatF64U (* 1368 *)
  | 0x08 => let* segment := read_var_u32 in let* mem := read_var_u32 in ret (Op_MemoryInit segment mem) (* 1370 *)
  | 0x09 => let* segment := read_var_u32 in ret (Op_DataDrop segment) (* 1375 *)
  | 0x0a => let* dst := read_var_u32 in let* src := read_var_u32 in ret (Op_MemoryCopy dst src) (* 1379 *)
  | 0x0b => let* mem := read_var_u32 in ret (Op_MemoryFill mem) (* 1384 *)
  | 0x0c => let* segment := read_var_u32 in let* table := read_var_u32 in ret (Op_TableInit segment table) (* 1388 *)
  | 0x0d => let* segment := read_var_u32 in ret (Op_ElemDrop segment) (* 1393 *)
  | 0x0e => let* dst_table := read_var_u32 in let* src_table := read_var_u32 in ret (Op_TableCopy dst_table src_table) (* 1397 *)
  | 0x0f => let* table := read_var_u32 in ret (Op_TableGrow table) (* 1403 *)
  | 0x10 => let* table := read_var_u32 in ret (Op_TableSize table) (* 1407 *)
  | 0x11 => let* table := read_var_u32 in ret (Op_TableFill table) (* 1412 *)
  | 0x12 => let* mem := read_var_u32 in ret (Op_MemoryDiscard mem) (* 1417 *)
  | 0x13 => ret Op_I64Add128 (* 1422 *)
  | 0x14 => ret Op_I64Sub128 (* 1423 *)
  | 0x15 => ret Op_I64MulWideS (* 1424 *)
  | 0x16 => ret Op_I64MulWideU (* 1425 *)
  | _ => fail_pos "unknown 0xfc subopcode" pos
  end.
Definition visit_fc (pos : Z) : R operator := let* code := read_var_u32 in arm_fc pos code.

(** [visit_0xfd_operator] (binary_reader.rs:1432-1745). *)
Definition arm_fd (pos code : Z) : R operator :=
  match code with
  | 0x00 => let* memarg := read_memarg 4 in ret (Op_V128Load memarg) (* 1442 *)
  | 0x01 => let* memarg := read_memarg 3 in ret (Op_V128Load8x8S memarg) (* 1443 *)
  | 0x02 => let* memarg := read_memarg 3 in ret (Op_V128Load8x8U memarg) (* 1444 *)
  | 0x03 => let* memarg := read_memarg 3 in ret (Op_V128Load16x4S memarg) (* 1445 *)
  | 0x04 => let* memarg := read_memarg 3 in ret (Op_V128Load16x4U memarg) (* 1446 *)
  | 0x05 => let* memarg := read_memarg 3 in ret (Op_V128Load32x2S memarg) (* 1447 *)
  | 0x06 => let* memarg := read_memarg 3 in ret (Op_V128Load32x2U memarg) (* 1448 *)
  | 0x07 => let* memarg := read_memarg 0 in ret (Op_V128Load8Splat memarg) (* 1449 *)
  | 0x08 => let* memarg := read_memarg 1 in ret (Op_V128Load16Splat memarg) (* 1450 *)
  | 0x09 => let* memarg := read_memarg 2 in ret (Op_V128Load32Splat memarg) (* 1451 *)
  | 0x0a => let* memarg := read_memarg 3 in ret (Op_V128Load64Splat memarg) (* 1452 *)
  | 0x0b => let* memarg := read_memarg 4 in ret (Op_V128Store memarg) (* 1454 *)
  | 0x0c => let* value := read_v128 in ret (Op_V128Const value) (* 1455 *)
  | 0x0d => let* lanes := read_lanes in ret (Op_I8x16Shuffle lanes) (* 1456 *)
  | 0x0e => ret Op_I8x16Swizzle (* 1464 *)
  | 0x0f => ret Op_I8x16Splat (* 1465 *)
  | 0x10 => ret Op_I16x8Splat (* 1466 *)
  | 0x11 => ret Op_I32x4Splat (* 1467 *)
  | 0x12 => ret Op_I64x2Splat (* 1468 *)
  | 0x13 => ret Op_F32x4Splat (* 1469 *)
  | 0x14 => ret Op_F64x2Splat (* 1470 *)
  | 0x15 => let* lane := read_lane in ret (Op_I8x16ExtractLaneS lane) (* 1472 *)
  | 0x16 => let* lane := read_lane in ret (Op_I8x16ExtractLaneU lane) (* 1473 *)
  | 0x17 => let* lane := read_lane in ret (Op_I8x16ReplaceLane lane) (* 1474 *)
  | 0x18 => let* lane := read_lane in ret (Op_I16x8ExtractLaneS lane) (* 1475 *)
  | 0x19 => let* lane := read_lane in ret (Op_I16x8ExtractLaneU lane) (* 1476 *)
  | 0x1a => let* lane := read_lane in ret (Op_I16x8ReplaceLane lane) (* 1477 *)
  | 0x1b => let* lane := read_lane in ret (Op_I32x4ExtractLane lane) (* 1478 *)
  | 0x1c => let* lane := read_lane in ret (Op_I32x4ReplaceLane lane) (* 1480 *)
  | 0x1d => let* lane := read_lane in ret (Op_I64x2ExtractLane lane) (* 1481 *)
  | 0x1e => let* lane := read_lane in ret (Op_I64x2ReplaceLane lane) (* 1482 *)
  | 0x1f => let* lane := read_lane in ret (Op_F32x4ExtractLane lane) (* 1483 *)
  | 0x20 => let* lane := read_lane in ret (Op_F32x4ReplaceLane lane) (* 1484 *)
  | 0x21 => let* lane := read_lane in ret (Op_F64x2ExtractLane lane) (* 1485 *)
  | 0x22 => let* lane := read_lane in ret (Op_F64x2ReplaceLane lane) (* 1486 *)
  | 0x23 => ret Op_I8x16Eq (* 1488 *)
  | 0x24 => ret Op_I8x16Ne (* 1489 *)
  | 0x25 => ret Op_I8x16LtS (* 1490 *)
  | 0x26 => ret Op_I8x16LtU (* 1491 *)
  | 0x27 => ret Op_I8x16GtS (* 1492 *)
  | 0x28 => ret Op_I8x16GtU (* 1493 *)
  | 0x29 => ret Op_I8x16LeS (* 1494 *)
  | 0x2a => ret Op_I8x16LeU (* 1495 *)
  | 0x2b => ret Op_I8x16GeS (* 1496 *)
  | 0x2c => ret Op_I8x16GeU (* 1497 *)
  | 0x2d => ret Op_I16x8Eq (* 1498 *)
  | 0x2e => ret Op_I16x8Ne (* 1499 *)
  | 0x2f => ret Op_I16x8LtS (* 1500 *)
  | 0x30 => ret Op_I16x8LtU (* 1501 *)
  | 0x31 => ret Op_I16x8GtS (* 1502 *)
  | 0x32 => ret Op_I16x8GtU (* 1503 *)
  | 0x33 => ret Op_I16x8LeS (* 1504 *)
  | 0x34 => ret Op_I16x8LeU (* 1505 *)
  | 0x35 => ret Op_I16x8GeS (* 1506 *)
  | 0x36 => ret Op_I16x8GeU (* 1507 *)
  | 0x37 => ret Op_I32x4Eq (* 1508 *)
  | 0x38 => ret Op_I32x4Ne (* 1509 *)
  | 0x39 => ret Op_I32x4LtS (* 1510 *)
  | 0x3a => ret Op_I32x4LtU (* 1511 *)
  | 0x3b => ret Op_I32x4GtS (* 1512 *)
  | 0x3c => ret Op_I32x4GtU (* 1513 *)
  | 0x3d => ret Op_I32x4LeS (* 1514 *)
  | 0x3e => ret Op_I32x4LeU (* 1515 *)
  | 0x3f => ret Op_I32x4GeS (* 1516 *)
  | 0x40 => ret Op_I32x4GeU (* 1517 *)
  | 0x41 => ret Op_F32x4Eq (* 1518 *)
  | 0x42 => ret Op_F32x4Ne (* 1519 *)
  | 0x43 => ret Op_F32x4Lt (* 1520 *)
  | 0x44 => ret Op_F32x4Gt (* 1521 *)
  | 0x45 => ret Op_F32x4Le (* 1522 *)
  | 0x46 => ret Op_F32x4Ge (* 1523 *)
  | 0x47 => ret Op_F64x2Eq (* 1524 *)
  | 0x48 => ret Op_F64x2Ne (* 1525 *)
  | 0x49 => ret Op_F64x2Lt (* 1526 *)
  | 0x4a => ret Op_F64x2Gt (* 1527 *)
  | 0x4b => ret Op_F64x2Le (* 1528 *)
  | 0x4c => ret Op_F64x2Ge (* 1529 *)
  | 0x4d => ret Op_V128Not (* 1530 *)
  | 0x4e => ret Op_V128And (* 1531 *)
  | 0x4f => ret Op_V128AndNot (* 1532 *)
  | 0x50 => ret Op_V128Or (* 1533 *)
  | 0x51 => ret Op_V128Xor (* 1534 *)
  | 0x52 => ret Op_V128Bitselect (* 1535 *)
  | 0x53 => ret Op_V128AnyTrue (* 1536 *)
  | 0x54 => let* memarg := read_memarg 0 in let* lane := read_lane in ret (Op_V128Load8Lane memarg lane) (* 1538 *)
  | 0x55 => let* memarg := read_memarg 1 in let* lane := read_lane in ret (Op_V128Load16Lane memarg lane) (* 1543 *)
  | 0x56 => let* memarg := read_memarg 2 in let* lane := read_lane in ret (Op_V128Load32Lane memarg lane) (* 1548 *)
  | 0x57 => let* memarg := read_memarg 3 in let* lane := read_lane in ret (Op_V128Load64Lane memarg lane) (* 1553 *)
  | 0x58 => let* memarg := read_memarg 0 in let* lane := read_lane in ret (Op_V128Store8Lane memarg lane) (* 1558 *)
  | 0x59 => let* memarg := read_memarg 1 in let* lane := read_lane in ret (Op_V128Store16Lane memarg lane) (* 1563 *)
  | 0x5a => let* memarg := read_memarg 2 in let* lane := read_lane in ret (Op_V128Store32Lane memarg lane) (* 1568 *)
  | 0x5b => let* memarg := read_memarg 3 in let* lane := read_lane in ret (Op_V128Store64Lane memarg lane) (* 1573 *)
  | 0x5c => let* memarg := read_memarg 2 in ret (Op_V128Load32Zero memarg) (* 1579 *)
  | 0x5d => let* memarg := read_memarg 3 in ret (Op_V128Load64Zero memarg) (* 1580 *)
  | 0x5e => ret Op_F32x4DemoteF64x2Zero (* 1581 *)
  | 0x5f => ret Op_F64x2PromoteLowF32x4 (* 1582 *)
  | 0x60 => ret Op_I8x16Abs (* 1583 *)
  | 0x61 => ret Op_I8x16Neg (* 1584 *)
  | 0x62 => ret Op_I8x16Popcnt (* 1585 *)
  | 0x63 => ret Op_I8x16AllTrue (* 1586 *)
  | 0x64 => ret Op_I8x16Bitmask (* 1587 *)
  | 0x65 => ret Op_I8x16NarrowI16x8S (* 1588 *)
  | 0x66 => ret Op_I8x16NarrowI16x8U (* 1589 *)
  | 0x67 => ret Op_F32x4Ceil (* 1590 *)
  | 0x68 => ret Op_F32x4Floor (* 1591 *)
  | 0x69 => ret Op_F32x4Trunc (* 1592 *)
  | 0x6a => ret Op_F32x4Nearest (* 1593 *)
  | 0x6b => ret Op_I8x16Shl (* 1594 *)
  | 0x6c => ret Op_I8x16ShrS (* 1595 *)
  | 0x6d => ret Op_I8x16ShrU (* 1596 *)
  | 0x6e => ret Op_I8x16Add (* 1597 *)
  | 0x6f => ret Op_I8x16AddSatS (* 1598 *)
  | 0x70 => ret Op_I8x16AddSatU (* 1599 *)
  | 0x71 => ret Op_I8x16Sub (* 1600 *)
  | 0x72 => ret Op_I8x16SubSatS (* 1601 *)
  | 0x73 => ret Op_I8x16SubSatU (* 1602 *)
  | 0x74 => ret Op_F64x2Ceil (* 1603 *)
  | 0x75 => ret Op_F64x2Floor (* 1604 *)
  | 0x76 => ret Op_I8x16MinS (* 1605 *)
  | 0x77 => ret Op_I8x16MinU (* 1606 *)
  | 0x78 => ret Op_I8x16MaxS (* 1607 *)
  | 0x79 => ret Op_I8x16MaxU (* 1608 *)
  | 0x7a => ret Op_F64x2Trunc (* 1609 *)
  | 0x7b => ret Op_I8x16AvgrU (* 1610 *)
  | 0x7c => ret Op_I16x8ExtAddPairwiseI8x16S (* 1611 *)
  | 0x7d => ret Op_I16x8ExtAddPairwiseI8x16U (* 1612 *)
  | 0x7e => ret Op_I32x4ExtAddPairwiseI16x8S (* 1613 *)
  | 0x7f => ret Op_I32x4ExtAddPairwiseI16x8U (* 1614 *)
  | 0x80 => ret Op_I16x8Abs (* 1615 *)
  | 0x81 => ret Op_I16x8Neg (* 1616 *)
  | 0x82 => ret Op_I16x8Q15MulrSatS (* 1617 *)
  | 0x83 => ret Op_I16x8AllTrue (* 1618 *)
  | 0x84 => ret Op_I16x8Bitmask (* 1619 *)
  | 0x85 => ret Op_I16x8NarrowI32x4S (* 1620 *)
  | 0x86 => ret Op_I16x8NarrowI32x4U (* 1621 *)
  | 0x87 => ret Op_I16x8ExtendLowI8x16S (* 1622 *)
  | 0x88 => ret Op_I16x8ExtendHighI8x16S (* 1623 *)
  | 0x89 => ret Op_I16x8ExtendLowI8x16U (* 1624 *)
  | 0x8a => ret Op_I16x8ExtendHighI8x16U (* 1625 *)
  | 0x8b => ret Op_I16x8Shl (* 1626 *)
  | 0x8c => ret Op_I16x8ShrS (* 1627 *)
  | 0x8d => ret Op_I16x8ShrU (* 1628 *)
  | 0x8e => ret Op_I16x8Add (* 1629 *)
  | 0x8f => ret Op_I16x8AddSatS (* 1630 *)
  | 0x90 => ret Op_I16x8AddSatU (* 1631 *)
  | 0x91 => ret Op_I16x8Sub (* 1632 *)
  | 0x92 => ret Op_I16x8SubSatS (* 1633 *)
  | 0x93 => ret Op_I16x8SubSatU (* 1634 *)
  | 0x94 => ret Op_F64x2Nearest (* 1635 *)
  | 0x95 => ret Op_I16x8Mul (* 1636 *)
  | 0x96 => ret Op_I16x8MinS (* 1637 *)
  | 0x97 => ret Op_I16x8MinU (* 1638 *)
  | 0x98 => ret Op_I16x8MaxS (* 1639 *)
  | 0x99 => ret Op_I16x8MaxU (* 1640 *)
  | 0x9b => ret Op_I16x8AvgrU (* 1641 *)
  | 0x9c => ret Op_I16x8ExtMulLowI8x16S (* 1642 *)
  | 0x9d => ret Op_I16x8ExtMulHighI8x16S (* 1643 *)
  | 0x9e => ret Op_I16x8ExtMulLowI8x16U (* 1644 *)
  | 0x9f => ret Op_I16x8ExtMulHighI8x16U (* 1645 *)
  | 0xa0 => ret Op_I32x4Abs (* 1646 *)
  | 0xa1 => ret Op_I32x4Neg (* 1647 *)
  | 0xa3 => ret Op_I32x4AllTrue (* 1648 *)
  | 0xa4 => ret Op_I32x4Bitmask (* 1649 *)
  | 0xa7 => ret Op_I32x4ExtendLowI16x8S (* 1650 *)
  | 0xa8 => ret Op_I32x4ExtendHighI16x8S (* 1651 *)
  | 0xa9 => ret Op_I32x4ExtendLowI16x8U (* 1652 *)
  | 0xaa => ret Op_I32x4ExtendHighI16x8U (* 1653 *)
  | 0xab => ret Op_I32x4Shl (* 1654 *)
  | 0xac => ret Op_I32x4ShrS (* 1655 *)
  | 0xad => ret Op_I32x4ShrU (* 1656 *)
  | 0xae => ret Op_I32x4Add (* 1657 *)
  | 0xb1 => ret Op_I32x4Sub (* 1658 *)
  | 0xb5 => ret Op_I32x4Mul (* 1659 *)
  | 0xb6 => ret Op_I32x4MinS (* 1660 *)
  | 0xb7 => ret Op_I32x4MinU (* 1661 *)
  | 0xb8 => ret Op_I32x4MaxS (* 1662 *)
  | 0xb9 => ret Op_I32x4MaxU (* 1663 *)
  | 0xba => ret Op_I32x4DotI16x8S (* 1664 *)
  | 0xbc => ret Op_I32x4ExtMulLowI16x8S (* 1665 *)
  | 0xbd => ret Op_I32x4ExtMulHighI16x8S (* 1666 *)
  | 0xbe => ret Op_I32x4ExtMulLowI16x8U (* 1667 *)
  | 0xbf => ret Op_I32x4ExtMulHighI16x8U (* 1668 *)
  | 0xc0 => ret Op_I64x2Abs (* 1669 *)
  | 0xc1 => ret Op_I64x2Neg (* 1670 *)
  | 0xc3 => ret Op_I64x2AllTrue (* 1671 *)
  | 0xc4 => ret Op_I64x2Bitmask (* 1672 *)
  | 0xc7 => ret Op_I64x2ExtendLowI32x4S (* 1673 *)
  | 0xc8 => ret Op_I64x2ExtendHighI32x4S (* 1674 *)
  | 0xc9 => ret Op_I64x2ExtendLowI32x4U (* 1675 *)
  | 0xca => ret Op_I64x2ExtendHighI32x4U (* 1676 *)
  | 0xcb => ret Op_I64x2Shl (* 1677 *)
  | 0xcc => ret Op_I64x2ShrS (* 1678 *)
  | 0xcd => ret Op_I64x2ShrU (* 1679 *)
  | 0xce => ret Op_I64x2Add (* 1680 *)
  | 0xd1 => ret Op_I64x2Sub (* 1681 *)
  | 0xd5 => ret Op_I64x2Mul (* 1682 *)
  | 0xd6 => ret Op_I64x2Eq (* 1683 *)
  | 0xd7 => ret Op_I64x2Ne (* 1684 *)
  | 0xd8 => ret Op_I64x2LtS (* 1685 *)
  | 0xd9 => ret Op_I64x2GtS (* 1686 *)
  | 0xda => ret Op_I64x2LeS (* 1687 *)
  | 0xdb => ret Op_I64x2GeS (* 1688 *)
  | 0xdc => ret Op_I64x2ExtMulLowI32x4S (* 1689 *)
  | 0xdd => ret Op_I64x2ExtMulHighI32x4S (* 1690 *)
  | 0xde => ret Op_I64x2ExtMulLowI32x4U (* 1691 *)
  | 0xdf => ret Op_I64x2ExtMulHighI32x4U (* 1692 *)
  | 0xe0 => ret Op_F32x4Abs (* 1693 *)
  | 0xe1 => ret Op_F32x4Neg (* 1694 *)
  | 0xe3 => ret Op_F32x4Sqrt (* 1695 *)
  | 0xe4 => ret Op_F32x4Add (* 1696 *)
  | 0xe5 => ret Op_F32x4Sub (* 1697 *)
  | 0xe6 => ret Op_F32x4Mul (* 1698 *)
  | 0xe7 => ret Op_F32x4Div (* 1699 *)
  | 0xe8 => ret Op_F32x4Min (* 1700 *)
  | 0xe9 => ret Op_F32x4Max (* 1701 *)
  | 0xea => ret Op_F32x4PMin (* 1702 *)
  | 0xeb => ret Op_F32x4PMax (* 1703 *)
  | 0xec => ret Op_F64x2Abs (* 1704 *)
  | 0xed => ret Op_F64x2Neg (* 1705 *)
  | 0xef => ret Op_F64x2Sqrt (* 1706 *)
  | 0xf0 => ret Op_F64x2Add (* 1707 *)
  | 0xf1 => ret Op_F64x2Sub (* 1708 *)
  | 0xf2 => ret Op_F64x2Mul (* 1709 *)
  | 0xf3 => ret Op_F64x2Div (* 1710 *)
  | 0xf4 => ret Op_F64x2Min (* 1711 *)
  | 0xf5 => ret Op_F64x2Max (* 1712 *)
  | 0xf6 => ret Op_F64x2PMin (* 1713 *)
  | 0xf7 => ret Op_F64x2PMax (* 1714 *)
  | 0xf8 => ret Op_I32x4TruncSatF32x4S (* 1715 *)
  | 0xf9 => ret Op_I32x4TruncSatF32x4U (* 1716 *)
  | 0xfa => ret Op_F32x4ConvertI32x4S (* 1717 *)
  | 0xfb => ret Op_F32x4ConvertI32x4U (* 1718 *)
  | 0xfc => ret Op_I32x4TruncSatF64x2SZero (* 1719 *)
  | 0xfd => ret Op_I32x4TruncSatF64x2UZero (* 1720 *)
  | 0xfe => ret Op_F64x2ConvertLowI32x4S (* 1721 *)
  | 0xff => ret Op_F64x2ConvertLowI32x4U (* 1722 *)
  | 0x100 => ret Op_I8x16RelaxedSwizzle (* 1723 *)
  | 0x101 => ret Op_I32x4RelaxedTruncF32x4S (* 1724 *)
  | 0x102 => ret Op_I32x4RelaxedTruncF32x4U (* 1725 *)
  | 0x103 => ret Op_I32x4RelaxedTruncF64x2SZero (* 1726 *)
  | 0x104 => ret Op_I32x4RelaxedTruncF64x2UZero (* 1727 *)
  | 0x105 => ret Op_F32x4RelaxedMadd (* 1728 *)
  | 0x106 => ret Op_F32x4RelaxedNmadd (* 1729 *)
  | 0x107 => ret Op_F64x2RelaxedMadd (* 1730 *)
  | 0x108 => ret Op_F64x2RelaxedNmadd (* 1731 *)
  | 0x109 => ret Op_I8x16RelaxedLaneselect (* 1732 *)
  | 0x10a => ret Op_I16x8RelaxedLaneselect (* 1733 *)
  | 0x10b => ret Op_I32x4RelaxedLaneselect (* 1734 *)
  | 0x10c => ret Op_I64x2RelaxedLaneselect (* 1735 *)
  | 0x10d => ret Op_F32x4RelaxedMin (* 1736 *)
  | 0x10e => ret Op_F32x4RelaxedMax (* 1737 *)
  | 0x10f => ret Op_F64x2RelaxedMin (* 1738 *)
  | 0x110 => ret Op_F64x2RelaxedMax (* 1739 *)
  | 0x111 => ret Op_I16x8RelaxedQ15mulrS (* 1740 *)
  | 0x112 => ret Op_I16x8RelaxedDotI8x16I7x16S (* 1741 *)
  | 0x113 => ret Op_I32x4RelaxedDotI8x16I7x16AddS (* 1742 *)
  | _ => fail_pos "unknown 0xfd subopcode" pos
  end.
Definition visit_fd (pos : Z) : R operator := let* code := read_var_u32 in arm_fd pos code.

(** [visit_0xfe_operator] (binary_reader.rs:1748-1934). *)
Definition arm_fe (pos code : Z) : R operator :=
  match code with
  | 0x00 => let* memarg := read_memarg 2 in ret (Op_MemoryAtomicNotify memarg) (* 1758 *)
  | 0x01 => let* memarg := read_memarg 2 in ret (Op_MemoryAtomicWait32 memarg) (* 1759 *)
  | 0x02 => let* memarg := read_memarg 3 in ret (Op_MemoryAtomicWait64 memarg) (* 1760 *)
  | 0x03 => let* b := read_u8 in if b =? 0 then ret Op_AtomicFence else fail_pos "nonzero byte after `atomic.fence`" pos (* 1761 *)
  | 0x10 => let* memarg := read_memarg 2 in ret (Op_I32AtomicLoad memarg) (* 1767 *)
  | 0x11 => let* memarg := read_memarg 3 in ret (Op_I64AtomicLoad memarg) (* 1768 *)
  | 0x12 => let* memarg := read_memarg 0 in ret (Op_I32AtomicLoad8U memarg) (* 1769 *)
  | 0x13 => let* memarg := read_memarg 1 in ret (Op_I32AtomicLoad16U memarg) (* 1770 *)
  | 0x14 => let* memarg := read_memarg 0 in ret (Op_I64AtomicLoad8U memarg) (* 1771 *)
  | 0x15 => let* memarg := read_memarg 1 in ret (Op_I64AtomicLoad16U memarg) (* 1772 *)
  | 0x16 => let* memarg := read_memarg 2 in ret (Op_I64AtomicLoad32U memarg) (* 1773 *)
  | 0x17 => let* memarg := read_memarg 2 in ret (Op_I32AtomicStore memarg) (* 1774 *)
  | 0x18 => let* memarg := read_memarg 3 in ret (Op_I64AtomicStore memarg) (* 1775 *)
  | 0x19 => let* memarg := read_memarg 0 in ret (Op_I32AtomicStore8 memarg) (* 1776 *)
  | 0x1a => let* memarg := read_memarg 1 in ret (Op_I32AtomicStore16 memarg) (* 1777 *)
  | 0x1b => let* memarg := read_memarg 0 in ret (Op_I64AtomicStore8 memarg) (* 1778 *)
  | 0x1c => let* memarg := read_memarg 1 in ret (Op_I64AtomicStore16 memarg) (* 1779 *)
  | 0x1d => let* memarg := read_memarg 2 in ret (Op_I64AtomicStore32 memarg) (* 1780 *)
  | 0x1e => let* memarg := read_memarg 2 in ret (Op_I32AtomicRmwAdd memarg) (* 1781 *)
  | 0x1f => let* memarg := read_memarg 3 in ret (Op_I64AtomicRmwAdd memarg) (* 1782 *)
  | 0x20 => let* memarg := read_memarg 0 in ret (Op_I32AtomicRmw8AddU memarg) (* 1783 *)
  | 0x21 => let* memarg := read_memarg 1 in ret (Op_I32AtomicRmw16AddU memarg) (* 1784 *)
  | 0x22 => let* memarg := read_memarg 0 in ret (Op_I64AtomicRmw8AddU memarg) (* 1785 *)
  | 0x23 => let* memarg := read_memarg 1 in ret (Op_I64AtomicRmw16AddU memarg) (* 1786 *)
  | 0x24 => let* memarg := read_memarg 2 in ret (Op_I64AtomicRmw32AddU memarg) (* 1787 *)
  | 0x25 => let* memarg := read_memarg 2 in ret (Op_I32AtomicRmwSub memarg) (* 1788 *)
  | 0x26 => let* memarg := read_memarg 3 in ret (Op_I64AtomicRmwSub memarg) (* 1789 *)
  | 0x27 => let* memarg := read_memarg 0 in ret (Op_I32AtomicRmw8SubU memarg) (* 1790 *)
  | 0x28 => let* memarg := read_memarg 1 in ret (Op_I32AtomicRmw16SubU memarg) (* 1791 *)
  | 0x29 => let* memarg := read_memarg 0 in ret (Op_I64AtomicRmw8SubU memarg) (* 1792 *)
  | 0x2a => let* memarg := read_memarg 1 in ret (Op_I64AtomicRmw16SubU memarg) (* 1793 *)
  | 0x2b => let* memarg := read_memarg 2 in ret (Op_I64AtomicRmw32SubU memarg) (* 1794 *)
  | 0x2c => let* memarg := read_memarg 2 in ret (Op_I32AtomicRmwAnd memarg) (* 1795 *)
  | 0x2d => let* memarg := read_memarg 3 in ret (Op_I64AtomicRmwAnd memarg) (* 1796 *)
  | 0x2e => let* memarg := read_memarg 0 in ret (Op_I32AtomicRmw8AndU memarg) (* 1797 *)
  | 0x2f => let* memarg := read_memarg 1 in ret (Op_I32AtomicRmw16AndU memarg) (* 1798 *)
  | 0x30 => let* memarg := read_memarg 0 in ret (Op_I64AtomicRmw8AndU memarg) (* 1799 *)
  | 0x31 => let* memarg := read_memarg 1 in ret (Op_I64AtomicRmw16AndU memarg) (* 1800 *)
  | 0x32 => let* memarg := read_memarg 2 in ret (Op_I64AtomicRmw32AndU memarg) (* 1801 *)
  | 0x33 => let* memarg := read_memarg 2 in ret (Op_I32AtomicRmwOr memarg) (* 1802 *)
  | 0x34 => let* memarg := read_memarg 3 in ret (Op_I64AtomicRmwOr memarg) (* 1803 *)
  | 0x35 => let* memarg := read_memarg 0 in ret (Op_I32AtomicRmw8OrU memarg) (* 1804 *)
  | 0x36 => let* memarg := read_memarg 1 in ret (Op_I32AtomicRmw16OrU memarg) (* 1805 *)
  | 0x37 => let* memarg := read_memarg 0 in ret (Op_I64AtomicRmw8OrU memarg) (* 1806 *)
  | 0x38 => let* memarg := read_memarg 1 in ret (Op_I64AtomicRmw16OrU memarg) (* 1807 *)
  | 0x39 => let* memarg := read_memarg 2 in ret (Op_I64AtomicRmw32OrU memarg) (* 1808 *)
  | 0x3a => let* memarg := read_memarg 2 in ret (Op_I32AtomicRmwXor memarg) (* 1809 *)
  | 0x3b => let* memarg := read_memarg 3 in ret (Op_I64AtomicRmwXor memarg) (* 1810 *)
  | 0x3c => let* memarg := read_memarg 0 in ret (Op_I32AtomicRmw8XorU memarg) (* 1811 *)
  | 0x3d => let* memarg := read_memarg 1 in ret (Op_I32AtomicRmw16XorU memarg) (* 1812 *)
  | 0x3e => let* memarg := read_memarg 0 in ret (Op_I64AtomicRmw8XorU memarg) (* 1813 *)
  | 0x3f => let* memarg := read_memarg 1 in ret (Op_I64AtomicRmw16XorU memarg) (* 1814 *)
  | 0x40 => let* memarg := read_memarg 2 in ret (Op_I64AtomicRmw32XorU memarg) (* 1815 *)
  | 0x41 => let* memarg := read_memarg 2 in ret (Op_I32AtomicRmwXchg memarg) (* 1816 *)
  | 0x42 => let* memarg := read_memarg 3 in ret (Op_I64AtomicRmwXchg memarg) (* 1817 *)
  | 0x43 => let* memarg := read_memarg 0 in ret (Op_I32AtomicRmw8XchgU memarg) (* 1818 *)
  | 0x44 => let* memarg := read_memarg 1 in ret (Op_I32AtomicRmw16XchgU memarg) (* 1819 *)
  | 0x45 => let* memarg := read_memarg 0 in ret (Op_I64AtomicRmw8XchgU memarg) (* 1820 *)
  | 0x46 => let* memarg := read_memarg 1 in ret (Op_I64AtomicRmw16XchgU memarg) (* 1821 *)
  | 0x47 => let* memarg := read_memarg 2 in ret (Op_I64AtomicRmw32XchgU memarg) (* 1822 *)
  | 0x48 => let* memarg := read_memarg 2 in ret (Op_I32AtomicRmwCmpxchg memarg) (* 1823 *)
  | 0x49 => let* memarg := read_memarg 3 in ret (Op_I64AtomicRmwCmpxchg memarg) (* 1824 *)
  | 0x4a => let* memarg := read_memarg 0 in ret (Op_I32AtomicRmw8CmpxchgU memarg) (* 1825 *)
  | 0x4b => let* memarg := read_memarg 1 in ret (Op_I32AtomicRmw16CmpxchgU memarg) (* 1826 *)
  | 0x4c => let* memarg := read_memarg 0 in ret (Op_I64AtomicRmw8CmpxchgU memarg) (* 1827 *)
  | 0x4d => let* memarg := read_memarg 1 in ret (Op_I64AtomicRmw16CmpxchgU memarg) (* 1828 *)
  | 0x4e => let* memarg := read_memarg 2 in ret (Op_I64AtomicRmw32CmpxchgU memarg) (* 1829 *)
  | 0x4f => let* ordering := read_ordering in let* global_index := read_var_u32 in ret (Op_GlobalAtomicGet ordering global_index) (* 1832 *)
  | 0x50 => let* ordering := read_ordering in let* global_index := read_var_u32 in ret (Op_GlobalAtomicSet ordering global_index) (* 1833 *)
  | 0x51 => let* ordering := read_ordering in let* global_index := read_var_u32 in ret (Op_GlobalAtomicRmwAdd ordering global_index) (* 1834 *)
  | 0x52 => let* ordering := read_ordering in let* global_index := read_var_u32 in ret (Op_GlobalAtomicRmwSub ordering global_index) (* 1837 *)
  | 0x53 => let* ordering := read_ordering in let* global_index := read_var_u32 in ret (Op_GlobalAtomicRmwAnd ordering global_index) (* 1840 *)
  | 0x54 => let* ordering := read_ordering in let* global_index := read_var_u32 in ret (Op_GlobalAtomicRmwOr ordering global_index) (* 1843 *)
  | 0x55 => let* ordering := read_ordering in let* global_index := read_var_u32 in ret (Op_GlobalAtomicRmwXor ordering global_index) (* 1844 *)
  | 0x56 => let* ordering := read_ordering in let* global_index := read_var_u32 in ret (Op_GlobalAtomicRmwXchg ordering global_index) (* 1847 *)
  | 0x57 => let* ordering := read_ordering in let* global_index := read_var_u32 in ret (Op_GlobalAtomicRmwCmpxchg ordering global_index) (* 1850 *)
  | 0x58 => let* ordering := read_ordering in let* table_index := read_var_u32 in ret (Op_TableAtomicGet ordering table_index) (* 1853 *)
  | 0x59 => let* ordering := read_ordering in let* table_index := read_var_u32 in ret (Op_TableAtomicSet ordering table_index) (* 1854 *)
  | 0x5a => let* ordering := read_ordering in let* table_index := read_var_u32 in ret (Op_TableAtomicRmwXchg ordering table_index) (* 1855 *)
  | 0x5b => let* ordering := read_ordering in let* table_index := read_var_u32 in ret (Op_TableAtomicRmwCmpxchg ordering table_index) (* 1858 *)
  | 0x5c => let* ordering := read_ordering in let* struct_type_index := read_var_u32 in let* field_index := read_var_u32 in ret (Op_StructAtomicGet ordering struct_type_index field_index) (* 1861 *)
  | 0x5d => let* ordering := read_ordering in let* struct_type_index := read_var_u32 in let* field_index := read_var_u32 in ret (Op_StructAtomicGetS ordering struct_type_index field_index) (* 1866 *)
  | 0x5e => let* ordering := read_ordering in let* struct_type_index := read_var_u32 in let* field_index := read_var_u32 in ret (Op_StructAtomicGetU ordering struct_type_index field_index) (* 1871 *)
  | 0x5f => let* ordering := read_ordering in let* struct_type_index := read_var_u32 in let* field_index := read_var_u32 in ret (Op_StructAtomicSet ordering struct_type_index field_index) (* 1876 *)
  | 0x60 => let* ordering := read_ordering in let* struct_type_index := read_var_u32 in let* field_index := read_var_u32 in ret (Op_StructAtomicRmwAdd ordering struct_type_index field_index) (* 1881 *)
  | 0x61 => let* ordering := read_ordering in let* struct_type_index := read_var_u32 in let* field_index := read_var_u32 in ret (Op_StructAtomicRmwSub ordering struct_type_index field_index) (* 1886 *)
  | 0x62 => let* ordering := read_ordering in let* struct_type_index := read_var_u32 in let* field_index := read_var_u32 in ret (Op_StructAtomicRmwAnd ordering struct_type_index field_index) (* 1891 *)
  | 0x63 => let* ordering := read_ordering in let* struct_type_index := read_var_u32 in let* field_index := read_var_u32 in ret (Op_StructAtomicRmwOr ordering struct_type_index field_index) (* 1896 *)
  | 0x64 => let* ordering := read_ordering in let* struct_type_index := read_var_u32 in let* field_index := read_var_u32 in ret (Op_StructAtomicRmwXor ordering struct_type_index field_index) (* 1901 *)
  | 0x65 => let* ordering := read_ordering in let* struct_type_index := read_var_u32 in let* field_index := read_var_u32 in ret (Op_StructAtomicRmwXchg ordering struct_type_index field_index) (* 1906 *)
  | 0x66 => let* ordering := read_ordering in let* struct_type_index := read_var_u32 in let* field_index := read_var_u32 in ret (Op_StructAtomicRmwCmpxchg ordering struct_type_index field_index) (* 1911 *)
  | 0x67 => let* ordering := read_ordering in let* array_type_index := read_var_u32 in ret (Op_ArrayAtomicGet ordering array_type_index) (* 1916 *)
  | 0x68 => let* ordering := read_ordering in let* array_type_index := read_var_u32 in ret (Op_ArrayAtomicGetS ordering array_type_index) (* 1917 *)
  | 0x69 => let* ordering := read_ordering in let* array_type_index := read_var_u32 in ret (Op_ArrayAtomicGetU ordering array_type_index) (* 1918 *)
  | 0x6a => let* ordering := read_ordering in let* array_type_index := read_var_u32 in ret (Op_ArrayAtomicSet ordering array_type_index) (* 1919 *)
  | 0x6b => let* ordering := read_ordering in let* array_type_index := read_var_u32 in ret (Op_ArrayAtomicRmwAdd ordering array_type_index) (* 1920 *)
  | 0x6c => let* ordering := read_ordering in let* array_type_index := read_var_u32 in ret (Op_ArrayAtomicRmwSub ordering array_type_index) (* 1921 *)
  | 0x6d => let* ordering := read_ordering in let* array_type_index := read_var_u32 in ret (Op_ArrayAtomicRmwAnd ordering array_type_index) (* 1922 *)
  | 0x6e => let* ordering := read_ordering in let* array_type_index := read_var_u32 in ret (Op_ArrayAtomicRmwOr ordering array_type_index) (* 1923 *)
  | 0x6f => let* ordering := read_ordering in let* array_type_index := read_var_u32 in ret (Op_ArrayAtomicRmwXor ordering array_type_index) (* 1924 *)
  | 0x70 => let* ordering := read_ordering in let* array_type_index := read_var_u32 in ret (Op_ArrayAtomicRmwXchg ordering array_type_index) (* 1925 *)
  | 0x71 => let* ordering := read_ordering in let* array_type_index := read_var_u32 in ret (Op_ArrayAtomicRmwCmpxchg ordering array_type_index) (* 1928 *)
  | 0x72 => ret Op_RefI31Shared (* 1931 *)
  | _ => fail_pos "unknown 0xfe subopcode" pos
  end.
Definition visit_fe (pos : Z) : R operator := let* code := read_var_u32 in arm_fe pos code.

(** [BinaryReader::visit_operator] (binary_reader.rs:830-1131) with a visitor that returns the operator and whose current frame
    is [cur]; the "simd" feature is on. *)
Definition arm_main (cur : option frame_kind) (pos code : Z) : R operator :=
  match code with
  | 0x00 => ret Op_Unreachable (* 843 *)
  | 0x01 => ret Op_Nop (* 844 *)
  | 0x02 => let* blockty := read_block in ret (Op_Block blockty) (* 845 *)
  | 0x03 => let* blockty := read_block in ret (Op_Loop blockty) (* 846 *)
  | 0x04 => let* blockty := read_block in ret (Op_If blockty) (* 847 *)
  | 0x05 => let* _ := expect_frame cur FIf in ret Op_Else (* 848 *)
  | 0x06 => let* _ := require_legacy pos in let* blockty := read_block in ret (Op_Try blockty) (* 852 *)
  | 0x07 => let* _ := require_legacy pos in let* _ := expect_either cur FLegacyCatch FLegacyTry in let* tag_index := read_var_u32 in ret (Op_Catch tag_index) (* 861 *)
  | 0x08 => let* tag_index := read_var_u32 in ret (Op_Throw tag_index) (* 874 *)
  | 0x09 => let* relative_depth := read_var_u32 in ret (Op_Rethrow relative_depth) (* 875 *)
  | 0x0a => ret Op_ThrowRef (* 876 *)
  | 0x0b => ret Op_End (* 877 *)
  | 0x0c => let* relative_depth := read_var_u32 in ret (Op_Br relative_depth) (* 878 *)
  | 0x0d => let* relative_depth := read_var_u32 in ret (Op_BrIf relative_depth) (* 879 *)
  | 0x0e => let* targets := read_br_table in ret (Op_BrTable targets) (* 880 *)
  | 0x0f => ret Op_Return (* 881 *)
  | 0x10 => let* function_index := read_var_u32 in ret (Op_Call function_index) (* 882 *)
  | 0x11 => let* index := read_var_u32 in let* table := read_call_table in ret (Op_CallIndirect index table) (* 883 *)
  | 0x12 => let* function_index := read_var_u32 in ret (Op_ReturnCall function_index) (* 888 *)
  | 0x13 => let* type_index := read_var_u32 in let* table_index := read_var_u32 in ret (Op_ReturnCallIndirect type_index table_index) (* 889 *)
  | 0x14 => let* type_index := read_var_u32 in ret (Op_CallRef type_index) (* 890 *)
  | 0x15 => let* type_index := read_var_u32 in ret (Op_ReturnCallRef type_index) (* 891 *)
  | 0x18 => let* _ := expect_frame cur FLegacyTry in let* relative_depth := read_var_u32 in ret (Op_Delegate relative_depth) (* 892 *)
  | 0x19 => let* _ := require_legacy pos in let* _ := expect_either cur FLegacyCatch FLegacyTry in ret Op_CatchAll (* 896 *)
  | 0x1a => ret Op_Drop (* 909 *)
  | 0x1b => ret Op_Select (* 910 *)
  | 0x1c => let* result_count := read_size MAX_WASM_SELECT_RESULT_SIZE "select types" in
      if result_count =? 1 then let* ty := read_val in ret (Op_TypedSelect ty)
      else let* tys := read_n (Z.to_nat result_count) read_val in ret (Op_TypedSelectMulti tys) (* 911 *)
  | 0x1f => let* try_table := read_try_table in ret (Op_TryTable try_table) (* 924 *)
  | 0x20 => let* local_index := read_var_u32 in ret (Op_LocalGet local_index) (* 926 *)
  | 0x21 => let* local_index := read_var_u32 in ret (Op_LocalSet local_index) (* 927 *)
  | 0x22 => let* local_index := read_var_u32 in ret (Op_LocalTee local_index) (* 928 *)
  | 0x23 => let* global_index := read_var_u32 in ret (Op_GlobalGet global_index) (* 929 *)
  | 0x24 => let* global_index := read_var_u32 in ret (Op_GlobalSet global_index) (* 930 *)
  | 0x25 => let* table := read_var_u32 in ret (Op_TableGet table) (* 931 *)
  | 0x26 => let* table := read_var_u32 in ret (Op_TableSet table) (* 932 *)
  | 0x28 => let* memarg := read_memarg 2 in ret (Op_I32Load memarg) (* 934 *)
  | 0x29 => let* memarg := read_memarg 3 in ret (Op_I64Load memarg) (* 935 *)
  | 0x2a => let* memarg := read_memarg 2 in ret (Op_F32Load memarg) (* 936 *)
  | 0x2b => let* memarg := read_memarg 3 in ret (Op_F64Load memarg) (* 937 *)
  | 0x2c => let* memarg := read_memarg 0 in ret (Op_I32Load8S memarg) (* 938 *)
  | 0x2d => let* memarg := read_memarg 0 in ret (Op_I32Load8U memarg) (* 939 *)
  | 0x2e => let* memarg := read_memarg 1 in ret (Op_I32Load16S memarg) (* 940 *)
  | 0x2f => let* memarg := read_memarg 1 in ret (Op_I32Load16U memarg) (* 941 *)
  | 0x30 => let* memarg := read_memarg 0 in ret (Op_I64Load8S memarg) (* 942 *)
  | 0x31 => let* memarg := read_memarg 0 in ret (Op_I64Load8U memarg) (* 943 *)
  | 0x32 => let* memarg := read_memarg 1 in ret (Op_I64Load16S memarg) (* 944 *)
  | 0x33 => let* memarg := read_memarg 1 in ret (Op_I64Load16U memarg) (* 945 *)
  | 0x34 => let* memarg := read_memarg 2 in ret (Op_I64Load32S memarg) (* 946 *)
  | 0x35 => let* memarg := read_memarg 2 in ret (Op_I64Load32U memarg) (* 947 *)
  | 0x36 => let* memarg := read_memarg 2 in ret (Op_I32Store memarg) (* 948 *)
  | 0x37 => let* memarg := read_memarg 3 in ret (Op_I64Store memarg) (* 949 *)
  | 0x38 => let* memarg := read_memarg 2 in ret (Op_F32Store memarg) (* 950 *)
  | 0x39 => let* memarg := read_memarg 3 in ret (Op_F64Store memarg) (* 951 *)
  | 0x3a => let* memarg := read_memarg 0 in ret (Op_I32Store8 memarg) (* 952 *)
  | 0x3b => let* memarg := read_memarg 1 in ret (Op_I32Store16 memarg) (* 953 *)
  | 0x3c => let* memarg := read_memarg 0 in ret (Op_I64Store8 memarg) (* 954 *)
  | 0x3d => let* memarg := read_memarg 1 in ret (Op_I64Store16 memarg) (* 955 *)
  | 0x3e => let* memarg := read_memarg 2 in ret (Op_I64Store32 memarg) (* 956 *)
  | 0x3f => let* mem := read_memory_index in ret (Op_MemorySize mem) (* 957 *)
  | 0x40 => let* mem := read_memory_index in ret (Op_MemoryGrow mem) (* 961 *)
  | 0x41 => let* value := read_var_i32 in ret (Op_I32Const value) (* 966 *)
  | 0x42 => let* value := read_var_i64 in ret (Op_I64Const value) (* 967 *)
  | 0x43 => let* value := read_u32 in ret (Op_F32Const value) (* 968 *)
  | 0x44 => let* value := read_u64 in ret (Op_F64Const value) (* 969 *)
  | 0x45 => ret Op_I32Eqz (* 971 *)
  | 0x46 => ret Op_I32Eq (* 972 *)
  | 0x47 => ret Op_I32Ne (* 973 *)
  | 0x48 => ret Op_I32LtS (* 974 *)
  | 0x49 => ret Op_I32LtU (* 975 *)
  | 0x4a => ret Op_I32GtS (* 976 *)
  | 0x4b => ret Op_I32GtU (* 977 *)
  | 0x4c => ret Op_I32LeS (* 978 *)
  | 0x4d => ret Op_I32LeU (* 979 *)
  | 0x4e => ret Op_I32GeS (* 980 *)
  | 0x4f => ret Op_I32GeU (* 981 *)
  | 0x50 => ret Op_I64Eqz (* 982 *)
  | 0x51 => ret Op_I64Eq (* 983 *)
  | 0x52 => ret Op_I64Ne (* 984 *)
  | 0x53 => ret Op_I64LtS (* 985 *)
  | 0x54 => ret Op_I64LtU (* 986 *)
  | 0x55 => ret Op_I64GtS (* 987 *)
  | 0x56 => ret Op_I64GtU (* 988 *)
  | 0x57 => ret Op_I64LeS (* 989 *)
  | 0x58 => ret Op_I64LeU (* 990 *)
  | 0x59 => ret Op_I64GeS (* 991 *)
  | 0x5a => ret Op_I64GeU (* 992 *)
  | 0x5b => ret Op_F32Eq (* 993 *)
  | 0x5c => ret Op_F32Ne (* 994 *)
  | 0x5d => ret Op_F32Lt (* 995 *)
  | 0x5e => ret Op_F32Gt (* 996 *)
  | 0x5f => ret Op_F32Le (* 997 *)
  | 0x60 => ret Op_F32Ge (* 998 *)
  | 0x61 => ret Op_F64Eq (* 999 *)
  | 0x62 => ret Op_F64Ne (* 1000 *)
  | 0x63 => ret Op_F64Lt (* 1001 *)
  | 0x64 => ret Op_F64Gt (* 1002 *)
  | 0x65 => ret Op_F64Le (* 1003 *)
  | 0x66 => ret Op_F64Ge (* 1004 *)
  | 0x67 => ret Op_I32Clz (* 1005 *)
  | 0x68 => ret Op_I32Ctz (* 1006 *)
  | 0x69 => ret Op_I32Popcnt (* 1007 *)
  | 0x6a => ret Op_I32Add (* 1008 *)
  | 0x6b => ret Op_I32Sub (* 1009 *)
  | 0x6c => ret Op_I32Mul (* 1010 *)
  | 0x6d => ret Op_I32DivS (* 1011 *)
  | 0x6e => ret Op_I32DivU (* 1012 *)
  | 0x6f => ret Op_I32RemS (* 1013 *)
  | 0x70 => ret Op_I32RemU (* 1014 *)
  | 0x71 => ret Op_I32And (* 1015 *)
  | 0x72 => ret Op_I32Or (* 1016 *)
  | 0x73 => ret Op_I32Xor (* 1017 *)
  | 0x74 => ret Op_I32Shl (* 1018 *)
  | 0x75 => ret Op_I32ShrS (* 1019 *)
  | 0x76 => ret Op_I32ShrU (* 1020 *)
  | 0x77 => ret Op_I32Rotl (* 1021 *)
  | 0x78 => ret Op_I32Rotr (* 1022 *)
  | 0x79 => ret Op_I64Clz (* 1023 *)
  | 0x7a => ret Op_I64Ctz (* 1024 *)
  | 0x7b => ret Op_I64Popcnt (* 1025 *)
  | 0x7c => ret Op_I64Add (* 1026 *)
  | 0x7d => ret Op_I64Sub (* 1027 *)
  | 0x7e => ret Op_I64Mul (* 1028 *)
  | 0x7f => ret Op_I64DivS (* 1029 *)
  | 0x80 => ret Op_I64DivU (* 1030 *)
  | 0x81 => ret Op_I64RemS (* 1031 *)
  | 0x82 => ret Op_I64RemU (* 1032 *)
  | 0x83 => ret Op_I64And (* 1033 *)
  | 0x84 => ret Op_I64Or (* 1034 *)
  | 0x85 => ret Op_I64Xor (* 1035 *)
  | 0x86 => ret Op_I64Shl (* 1036 *)
  | 0x87 => ret Op_I64ShrS (* 1037 *)
  | 0x88 => ret Op_I64ShrU (* 1038 *)
  | 0x89 => ret Op_I64Rotl (* 1039 *)
  | 0x8a => ret Op_I64Rotr (* 1040 *)
  | 0x8b => ret Op_F32Abs (* 1041 *)
  | 0x8c => ret Op_F32Neg (* 1042 *)
  | 0x8d => ret Op_F32Ceil (* 1043 *)
  | 0x8e => ret Op_F32Floor (* 1044 *)
  | 0x8f => ret Op_F32Trunc (* 1045 *)
  | 0x90 => ret Op_F32Nearest (* 1046 *)
  | 0x91 => ret Op_F32Sqrt (* 1047 *)
  | 0x92 => ret Op_F32Add (* 1048 *)
  | 0x93 => ret Op_F32Sub (* 1049 *)
  | 0x94 => ret Op_F32Mul (* 1050 *)
  | 0x95 => ret Op_F32Div (* 1051 *)
  | 0x96 => ret Op_F32Min (* 1052 *)
  | 0x97 => ret Op_F32Max (* 1053 *)
  | 0x98 => ret Op_F32Copysign (* 1054 *)
  | 0x99 => ret Op_F64Abs (* 1055 *)
  | 0x9a => ret Op_F64Neg (* 1056 *)
  | 0x9b => ret Op_F64Ceil (* 1057 *)
  | 0x9c => ret Op_F64Floor (* 1058 *)
  | 0x9d => ret Op_F64Trunc (* 1059 *)
  | 0x9e => ret Op_F64Nearest (* 1060 *)
  | 0x9f => ret Op_F64Sqrt (* 1061 *)
  | 0xa0 => ret Op_F64Add (* 1062 *)
  | 0xa1 => ret Op_F64Sub (* 1063 *)
  | 0xa2 => ret Op_F64Mul (* 1064 *)
  | 0xa3 => ret Op_F64Div (* 1065 *)
  | 0xa4 => ret Op_F64Min (* 1066 *)
  | 0xa5 => ret Op_F64Max (* 1067 *)
  | 0xa6 => ret Op_F64Copysign (* 1068 *)
  | 0xa7 => ret Op_I32WrapI64 (* 1069 *)
  | 0xa8 => ret Op_I32TruncF32S (* 1070 *)
  | 0xa9 => ret Op_I32TruncF32U (* 1071 *)
  | 0xaa => ret Op_I32TruncF64S (* 1072 *)
  | 0xab => ret Op_I32TruncF64U (* 1073 *)
  | 0xac => ret Op_I64ExtendI32S (* 1074 *)
  | 0xad => ret Op_I64ExtendI32U (* 1075 *)
  | 0xae => ret Op_I64TruncF32S (* 1076 *)
  | 0xaf => ret Op_I64TruncF32U (* 1077 *)
  | 0xb0 => ret Op_I64TruncF64S (* 1078 *)
  | 0xb1 => ret Op_I64TruncF64U (* 1079 *)
  | 0xb2 => ret Op_F32ConvertI32S (* 1080 *)
  | 0xb3 => ret Op_F32ConvertI32U (* 1081 *)
  | 0xb4 => ret Op_F32ConvertI64S (* 1082 *)
  | 0xb5 => ret Op_F32ConvertI64U (* 1083 *)
  | 0xb6 => ret Op_F32DemoteF64 (* 1084 *)
  | 0xb7 => ret Op_F64ConvertI32S (* 1085 *)
  | 0xb8 => ret Op_F64ConvertI32U (* 1086 *)
  | 0xb9 => ret Op_F64ConvertI64S (* 1087 *)
  | 0xba => ret Op_F64ConvertI64U (* 1088 *)
  | 0xbb => ret Op_F64PromoteF32 (* 1089 *)
  | 0xbc => ret Op_I32ReinterpretF32 (* 1090 *)
  | 0xbd => ret Op_I64ReinterpretF64 (* 1091 *)
  | 0xbe => ret Op_F32ReinterpretI32 (* 1092 *)
  | 0xbf => ret Op_F64ReinterpretI64 (* 1093 *)
  | 0xc0 => ret Op_I32Extend8S (* 1095 *)
  | 0xc1 => ret Op_I32Extend16S (* 1096 *)
  | 0xc2 => ret Op_I64Extend8S (* 1097 *)
  | 0xc3 => ret Op_I64Extend16S (* 1098 *)
  | 0xc4 => ret Op_I64Extend32S (* 1099 *)
  | 0xd0 => let* hty := read_heap in ret (Op_RefNull hty) (* 1101 *)
  | 0xd1 => ret Op_RefIsNull (* 1102 *)
  | 0xd2 => let* function_index := read_var_u32 in ret (Op_RefFunc function_index) (* 1103 *)
  | 0xd3 => ret Op_RefEq (* 1104 *)
  | 0xd4 => ret Op_RefAsNonNull (* 1105 *)
  | 0xd5 => let* relative_depth := read_var_u32 in ret (Op_BrOnNull relative_depth) (* 1106 *)
  | 0xd6 => let* relative_depth := read_var_u32 in ret (Op_BrOnNonNull relative_depth) (* 1107 *)
  | 0xe0 => let* cont_type_index := read_var_u32 in ret (Op_ContNew cont_type_index) (* 1109 *)
  | 0xe1 => let* argument_index := read_var_u32 in let* result_index := read_var_u32 in ret (Op_ContBind argument_index result_index) (* 1110 *)
  | 0xe2 => let* tag_index := read_var_u32 in ret (Op_Suspend tag_index) (* 1111 *)
  | 0xe3 => let* cont_type_index := read_var_u32 in let* resume_table := read_resume_table in ret (Op_Resume cont_type_index resume_table) (* 1112 *)
  | 0xe4 => let* cont_type_index := read_var_u32 in let* tag_index := read_var_u32 in let* resume_table := read_resume_table in ret (Op_ResumeThrow cont_type_index tag_index resume_table) (* 1113 *)
  | 0xe5 => let* cont_type_index := read_var_u32 in let* resume_table := read_resume_table in ret (Op_ResumeThrowRef cont_type_index resume_table) (* 1116 *)
  | 0xe6 => let* cont_type_index := read_var_u32 in let* tag_index := read_var_u32 in ret (Op_Switch cont_type_index tag_index) (* 1117 *)
  | 0xfb => visit_fb pos (* 1119 *)
  | 0xfc => visit_fc pos (* 1120 *)
  | 0xfd => visit_fd pos (* 1121 *)
  | 0xfe => visit_fe pos (* 1128 *)
  | _ => fail_pos "illegal opcode" pos
  end.
Definition visit_operator (cur : option frame_kind) : R operator :=
  match cur with
  | None => fail_at "operators remaining after end of function body or expression" 0
  | Some _ => let* pos := get_pos in let* code := read_u8 in arm_main cur pos code
  end.
