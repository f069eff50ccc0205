(** How many bits of memory each instruction accesses, as its name says. *)
From Verif.Base Require Import Prelude.
From Verif.Reader Require Import Model.
From Verif.Types Require Import RefModel CodecModel.
From Verif.Instr Require Import ImmModel Ops.

(** The memory immediate of an operator and the size of its access in bits (WebAssembly specification,
    section "Memory Instructions": [t.loadN], [t.storeN], [t.load] of the width of [t], and so on;
    threads proposal for the atomic ones). *)
Definition access (o : operator) : option (p_memarg * Z) :=
  match o with
  (* 8 bits *)
  | Op_I32Load8S m | Op_I32Load8U m | Op_I64Load8S m | Op_I64Load8U m | Op_I32Store8 m
  | Op_I64Store8 m | Op_V128Load8Splat m | Op_V128Load8Lane m _ | Op_V128Store8Lane m _ | Op_I32AtomicLoad8U m
  | Op_I64AtomicLoad8U m | Op_I32AtomicStore8 m | Op_I64AtomicStore8 m | Op_I32AtomicRmw8AddU m | Op_I64AtomicRmw8AddU m
  | Op_I32AtomicRmw8SubU m | Op_I64AtomicRmw8SubU m | Op_I32AtomicRmw8AndU m | Op_I64AtomicRmw8AndU m | Op_I32AtomicRmw8OrU m
  | Op_I64AtomicRmw8OrU m | Op_I32AtomicRmw8XorU m | Op_I64AtomicRmw8XorU m | Op_I32AtomicRmw8XchgU m | Op_I64AtomicRmw8XchgU m
  | Op_I32AtomicRmw8CmpxchgU m | Op_I64AtomicRmw8CmpxchgU m => Some (m, 8)
  (* 16 bits *)
  | Op_I32Load16S m | Op_I32Load16U m | Op_I64Load16S m | Op_I64Load16U m | Op_I32Store16 m
  | Op_I64Store16 m | Op_V128Load16Splat m | Op_V128Load16Lane m _ | Op_V128Store16Lane m _ | Op_I32AtomicLoad16U m
  | Op_I64AtomicLoad16U m | Op_I32AtomicStore16 m | Op_I64AtomicStore16 m | Op_I32AtomicRmw16AddU m | Op_I64AtomicRmw16AddU m
  | Op_I32AtomicRmw16SubU m | Op_I64AtomicRmw16SubU m | Op_I32AtomicRmw16AndU m | Op_I64AtomicRmw16AndU m | Op_I32AtomicRmw16OrU m
  | Op_I64AtomicRmw16OrU m | Op_I32AtomicRmw16XorU m | Op_I64AtomicRmw16XorU m | Op_I32AtomicRmw16XchgU m | Op_I64AtomicRmw16XchgU m
  | Op_I32AtomicRmw16CmpxchgU m | Op_I64AtomicRmw16CmpxchgU m => Some (m, 16)
  (* 32 bits *)
  | Op_I32Load m | Op_F32Load m | Op_I64Load32S m | Op_I64Load32U m | Op_I32Store m
  | Op_F32Store m | Op_I64Store32 m | Op_V128Load32Splat m | Op_V128Load32Zero m | Op_V128Load32Lane m _
  | Op_V128Store32Lane m _ | Op_MemoryAtomicNotify m | Op_MemoryAtomicWait32 m | Op_I32AtomicLoad m | Op_I64AtomicLoad32U m
  | Op_I32AtomicStore m | Op_I64AtomicStore32 m | Op_I32AtomicRmwAdd m | Op_I64AtomicRmw32AddU m | Op_I32AtomicRmwSub m
  | Op_I64AtomicRmw32SubU m | Op_I32AtomicRmwAnd m | Op_I64AtomicRmw32AndU m | Op_I32AtomicRmwOr m | Op_I64AtomicRmw32OrU m
  | Op_I32AtomicRmwXor m | Op_I64AtomicRmw32XorU m | Op_I32AtomicRmwXchg m | Op_I64AtomicRmw32XchgU m | Op_I32AtomicRmwCmpxchg m
  | Op_I64AtomicRmw32CmpxchgU m => Some (m, 32)
  (* 64 bits *)
  | Op_I64Load m | Op_F64Load m | Op_I64Store m | Op_F64Store m | Op_V128Load8x8S m
  | Op_V128Load8x8U m | Op_V128Load16x4S m | Op_V128Load16x4U m | Op_V128Load32x2S m | Op_V128Load32x2U m
  | Op_V128Load64Splat m | Op_V128Load64Zero m | Op_V128Load64Lane m _ | Op_V128Store64Lane m _ | Op_MemoryAtomicWait64 m
  | Op_I64AtomicLoad m | Op_I64AtomicStore m | Op_I64AtomicRmwAdd m | Op_I64AtomicRmwSub m | Op_I64AtomicRmwAnd m
  | Op_I64AtomicRmwOr m | Op_I64AtomicRmwXor m | Op_I64AtomicRmwXchg m | Op_I64AtomicRmwCmpxchg m => Some (m, 64)
  (* 128 bits *)
  | Op_V128Load m | Op_V128Store m => Some (m, 128)
  | _ => None
  end.
