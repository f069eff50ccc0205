(** Which immediates of instructions the reader is expected to accept, given the
    proposals that are enabled. *)
From Verif.Base Require Import Prelude.
From Verif.Reader Require Import Model.
From Verif.Types Require Import RefModel CodecModel CodecSpec.
From Verif.Instr Require Import ImmModel.

(** The kinds of immediates an instruction of wasm-encoder can have. *)
Inductive imm :=
| IU32 (v : Z)                        (* an index, a label, a count *)
| II32 (v : Z) | II64 (v : Z)         (* the value of a constant *)
| IF32 (bits : Z) | IF64 (bits : Z)
| IV128 (v : Z)
| ILane (l : Z) | ILanes (l : list Z)
| IBlock (b : e_block)
| IMem (m : e_memarg)
| IMemIdx (i : Z)                     (* the memory of memory.size, memory.grow *)
| ICallTable (i : Z)                  (* the table of call_indirect *)
| IBr (labels : list Z)               (* the labels of br_table but the last *)
| IHeap (h : e_heap) | IRef (r : e_ref) | IVal (v : e_val)
| ISelect (l : list e_val)            (* the types of a select that has not exactly one *)
| IOrd (o : ordering)
| ICatches (l : list catch) | IHandlers (l : list handle)
| ILegacy.                            (* the instruction needs the legacy-exceptions proposal *)

Definition block_ok (b : e_block) : Prop :=
  match b with EBEmpty => True | EBResult v => val_ok v | EBFunc i => in_u 32 i end.
Definition catch_ok (c : catch) : Prop :=
  match c with COne t l | COneRef t l => in_u 32 t /\ in_u 32 l | CAll l | CAllRef l => in_u 32 l end.
Definition handle_ok (h : handle) : Prop :=
  match h with HOnLabel t l => in_u 32 t /\ in_u 32 l | HOnSwitch t => in_u 32 t end.

Section features.
Context (ft : features).
(** The alignment exponent has six bits, or five without the multi-memory proposal; the offset is a
    [u64] with the memory64 proposal and a [u32] without. *)
Definition memarg_ok (m : e_memarg) : Prop :=
  0 <= em_align m < (if f_multi_memory ft then 64 else 32) /\
  in_u (if f_memory64 ft then 64 else 32) (em_offset m) /\
  (if f_multi_memory ft then in_u 32 (em_memory m) else em_memory m = 0).
Definition imm_ok (i : imm) : Prop :=
  match i with
  | IU32 v => in_u 32 v
  | II32 v => in_s 32 v
  | II64 v => in_s 64 v
  | IF32 b => in_u 32 b
  | IF64 b => in_u 64 b
  | IV128 v => in_s 128 v
  | ILane l => is_byte l
  | ILanes l => bytes_ok l /\ zlen l = 16
  | IBlock b => block_ok b
  | IMem m => memarg_ok m
  | IMemIdx i => if f_multi_memory ft then in_u 32 i else i = 0
  | ICallTable i => if f_call_indirect_overlong ft then in_u 32 i else i = 0
  | IBr l => Forall (in_u 32) l /\ zlen l <= 7654321
  | IHeap h => heap_ok h
  | IRef r => ref_ok r
  | IVal v => val_ok v
  | ISelect l => Forall val_ok l /\ zlen l <= 10 /\ zlen l <> 1
  | IOrd _ => True
  | ICatches l => Forall catch_ok l /\ zlen l <= 10000
  | IHandlers l => Forall handle_ok l /\ zlen l <= 10000
  | ILegacy => f_legacy_exceptions ft = true
  end.
Fixpoint imms_ok (l : list imm) : Prop := match l with [] => True | i :: t => imm_ok i /\ imms_ok t end.
End features.
