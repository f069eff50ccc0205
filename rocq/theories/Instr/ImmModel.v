(** Immediates of instructions: the writers of wasm-encoder
    (crates/wasm-encoder/src/core/code.rs), the readers of wasmparser
    (crates/wasmparser/src/binary_reader.rs and readers/core/operators.rs), the
    conversions of crates/wasm-encoder/src/reencode.rs with no renumbering. *)
From Verif.Base Require Import Prelude.
From Verif.Reader Require Import Model.
From Verif.Leb Require Import Model.
From Verif.Codec Require Import Kit.
From Verif.Types Require Import RefModel CodecModel EntityModel.

(** * wasm-encoder *)
(** [enum BlockType] (code.rs:436-444), [struct MemArg] (code.rs:373-389). *)
Inductive e_block := EBEmpty | EBResult (v : e_val) | EBFunc (i : Z).
Record e_memarg := mkEMem { em_offset : Z; em_align : Z; em_memory : Z }.
(** [enum Ordering] (code.rs:411-420), [enum Catch] (2192-2199), [enum Handle] (2226-2231): the same
    in both crates. *)
Inductive ordering := AcqRel | SeqCst.
Inductive catch := COne (tag label : Z) | COneRef (tag label : Z) | CAll (label : Z) | CAllRef (label : Z).
Inductive handle := HOnLabel (tag label : Z) | HOnSwitch (tag : Z).

(** [Encode for BlockType] (code.rs:446-454). *)
Definition enc_block (b : e_block) : out :=
  match b with EBEmpty => o_byte 0x40 | EBResult v => enc_val v | EBFunc i => encode_s64 i end.
(** [Encode for MemArg] (code.rs:391-402). *)
Definition enc_memarg (m : e_memarg) : out :=
  if em_memory m =? 0 then encode_u32 (em_align m) +++ encode_u64 (em_offset m)
  else encode_u32 (Z.lor (em_align m) (Z.shiftl 1 6)) +++ encode_u32 (em_memory m) +++ encode_u64 (em_offset m).
(** [Encode for Ordering] (code.rs:422-430). *)
Definition enc_ordering (o : ordering) : out := o_byte (match o with SeqCst => 0 | AcqRel => 1 end).
(** [Encode for Catch] (code.rs:2201-2224), [Encode for Handle] (2233-2247). *)
Definition enc_catch (c : catch) : out :=
  match c with
  | COne t l => o_byte 0x00 +++ encode_u32 t +++ encode_u32 l
  | COneRef t l => o_byte 0x01 +++ encode_u32 t +++ encode_u32 l
  | CAll l => o_byte 0x02 +++ encode_u32 l
  | CAllRef l => o_byte 0x03 +++ encode_u32 l
  end.
Definition enc_handle (h : handle) : out :=
  match h with
  | HOnLabel t l => o_byte 0x00 +++ encode_u32 t +++ encode_u32 l
  | HOnSwitch t => o_byte 0x01 +++ encode_u32 t
  end.
(** [to_le_bytes] of an [n]-byte integer. *)
Fixpoint to_le_bytes (n : nat) (v : Z) : list Z :=
  match n with O => [] | S k => v mod 256 :: to_le_bytes k (v / 256) end.
(** [sink.extend(x.to_le_bytes())], [sink.extend(lanes)]. *)
Definition o_le (n : nat) (v : Z) : out := Some (to_le_bytes n v).
Definition o_raw (l : list Z) : out := Some l.
(** [cast_flags] (instructions.rs:3139-3143 and the other casts). *)
Definition cast_flags (from to : e_ref) : Z := Z.lor (bit_of (er_null from)) (Z.shiftl (bit_of (er_null to)) 1).

(** * wasmparser *)
(** [enum BlockType], [enum FrameKind], [struct MemArg] (operators.rs:21-97). *)
Inductive p_block := PBEmpty | PBType (v : p_val) | PBFunc (i : Z).
Inductive frame_kind := FBlock | FIf | FElse | FLoop | FTryTable | FLegacyTry | FLegacyCatch | FLegacyCatchAll.
Record p_memarg := mkPMem { pm_align : Z; pm_max_align : Z; pm_offset : Z; pm_memory : Z }.
(** [struct BrTable] (operators.rs:99-105); its reader is kept as the bytes it covers, without
    the position, which only the offsets in errors of [targets] depend on. *)
Record p_br_table := mkPBr { pb_bytes : list Z; pb_cnt : Z; pb_default : Z }.
(** [struct TryTable] (operators.rs:847-855); [struct ResumeTable] (909-914) is its handlers. *)
Record p_try_table := mkPTry { pt_ty : p_block; pt_catches : list catch }.

(** [read_block_type] (binary_reader.rs:666-703). *)
Definition read_block : R p_block :=
  let* b := peek in
  if (Z.land b 0x80 =? 0) && negb (Z.land b 0x40 =? 0) then
    if b =? 0x40 then let* _ := read_u8 in ret PBEmpty
    else let* v := read_val in ret (PBType v)
  else
    let* i := read_var_s33 in
    if is_u32 i then ret (PBFunc i) else fail_at "invalid function type" 0.
(** [read_memarg] (binary_reader.rs:1937-1966). *)
Definition read_memarg (max_align : Z) : R p_memarg :=
  let* pos := get_pos in
  let* flags := read_var_u32 in
  let* fm := fun r =>
    (if f_multi_memory (r_feat r) && negb (Z.land flags (Z.shiftl 1 6) =? 0)
     then let* m := read_var_u32 in ret (Z.lxor flags (Z.shiftl 1 6), m)
     else ret (flags, 0)) r in
  let* bits := fun r => Ok (if f_multi_memory (r_feat r) then 6 else 5, r) in
  if Z.shiftl 1 bits <=? fst fm then fail_pos "malformed memop alignment: alignment too large" pos
  else
    let* offset := read_limit in
    ret (mkPMem (wrapu 8 (fst fm)) max_align offset (snd fm)).
(** [read_ordering] (binary_reader.rs:1968-1978). *)
Definition read_ordering : R ordering :=
  let* b := read_var_u32 in
  if b =? 0 then ret SeqCst else if b =? 1 then ret AcqRel else fail_at "invalid atomic consistency ordering" 1.
(** [limits.rs:24, 40-46]. *)
Definition MAX_WASM_BR_TABLE_SIZE : Z := 7654321.
Definition MAX_WASM_CATCHES : Z := 10000.
Definition MAX_WASM_HANDLERS : Z := 10000.
Definition MAX_WASM_SELECT_RESULT_SIZE : Z := 10.
(** [read_br_table] (binary_reader.rs:1980-1994). *)
Definition read_br_table : R p_br_table :=
  let* cnt := read_size MAX_WASM_BR_TABLE_SIZE "br_table" in
  let* bytes := skip_raw (read_n (Z.to_nat cnt) read_var_u32) in
  let* default := read_var_u32 in
  ret (mkPBr bytes (wrapu 32 cnt) default).
(** [BrTable::targets] collected (operators.rs:135-180). *)
Definition br_targets (b : p_br_table) : res (list Z) :=
  match (let* l := read_n (Z.to_nat (pb_cnt b)) read_var_u32 in
         fun r => if eof r then Ok (l, r) else fail_at "trailing data in br_table" 0 r)
        (new_reader all_features (pb_bytes b) 0) with
  | Ok (l, _) => Ok l
  | Err e => Err e
  end.
(** [read_lane_index], [read_v128] (binary_reader.rs:1996-2006). *)
Definition read_lane : R Z := read_u8.
Definition read_v128 : R (list Z) := read_bytes 16.
(** [read_memory_index_or_zero_if_not_multi_memory] (binary_reader.rs:2008-2019),
    [read_call_indirect_table_immediate] (2021-2035). *)
Definition zero_byte : R Z := let* b := read_u8 in if b =? 0 then ret 0 else fail_at "zero byte expected" 1.
Definition read_memory_index : R Z := fun r => if f_multi_memory (r_feat r) then read_var_u32 r else zero_byte r.
Definition read_call_table : R Z := fun r => if f_call_indirect_overlong (r_feat r) then read_var_u32 r else zero_byte r.
(** [FromReader for Catch] (operators.rs:881-903), [TryTable] (871-879), [Handle] (945-958), [ResumeTable] (934-943). *)
Definition read_catch : R catch :=
  let* b := read_u8 in
  if b =? 0 then let* t := read_var_u32 in let* l := read_var_u32 in ret (COne t l)
  else if b =? 1 then let* t := read_var_u32 in let* l := read_var_u32 in ret (COneRef t l)
  else if b =? 2 then let* l := read_var_u32 in ret (CAll l)
  else if b =? 3 then let* l := read_var_u32 in ret (CAllRef l)
  else fail_at "invalid leading byte for catch" 1.
Definition read_try_table : R p_try_table :=
  let* ty := read_block in
  let* l := read_list MAX_WASM_CATCHES "catches" read_catch in
  ret (mkPTry ty l).
Definition read_handle : R handle :=
  let* b := read_u8 in
  if b =? 0 then let* t := read_var_u32 in let* l := read_var_u32 in ret (HOnLabel t l)
  else if b =? 1 then let* t := read_var_u32 in ret (HOnSwitch t)
  else fail_at "invalid leading byte for on clause" 1.
Definition read_resume_table : R (list handle) := read_list MAX_WASM_HANDLERS "resume table" read_handle.
(** The sixteen lanes of a shuffle (binary_reader.rs:1451-1457). *)
Definition read_lanes : R (list Z) := read_n 16 read_lane.
(** The cast immediates of [br_on_cast] and its variants (binary_reader.rs:1233-1255, 1256-1278, 1301-1344,
    the same four times): label, source and target. *)
Definition read_cast : R (Z * Z * Z) :=
  let* pos := get_pos in
  let* flags := read_u8 in
  let* depth := read_var_u32 in
  let* nn := (if flags =? 0 then ret (false, false) else if flags =? 1 then ret (true, false)
              else if flags =? 2 then ret (false, true) else if flags =? 3 then ret (true, true)
              else fail_pos "invalid cast flags" pos) in
  let* h := read_heap in
  let* from := match ref_new (fst nn) h with Some r => ret r | None => fail_pos "implementation error: type index too large" pos end in
  let* h := read_heap in
  let* to := match ref_new (snd nn) h with Some r => ret r | None => fail_pos "implementation error: type index too large" pos end in
  ret (depth, from, to).
(** [expect_frame] (binary_reader.rs:811-823); the message is abbreviated. *)
Definition frame_eqb (a b : frame_kind) : bool :=
  match a, b with
  | FBlock, FBlock | FIf, FIf | FElse, FElse | FLoop, FLoop | FTryTable, FTryTable | FLegacyTry, FLegacyTry
  | FLegacyCatch, FLegacyCatch | FLegacyCatchAll, FLegacyCatchAll => true
  | _, _ => false
  end.
Definition in_frame (cur : option frame_kind) (k : frame_kind) : bool := match cur with Some f => frame_eqb f k | None => false end.
Definition expect_frame (cur : option frame_kind) (k : frame_kind) : R unit :=
  if in_frame cur k then ret tt else fail_at "found outside block" 0.
(** [match self.expect_frame(a) { Ok(()) => (), Err(_) => self.expect_frame(b)? }] (binary_reader.rs:869-872, 910-913). *)
Definition expect_either (cur : option frame_kind) (a b : frame_kind) : R unit :=
  if in_frame cur a then ret tt else expect_frame cur b.
(** [require_feature::legacy_exceptions] (features.rs). *)
Definition require_legacy (pos : Z) : R unit :=
  fun r => if f_legacy_exceptions (r_feat r) then Ok (tt, r) else fail_pos "legacy_exceptions feature required" pos r.

(** * Conversions *)
(** [block_type] (reencode.rs:1666-1677), [mem_arg] (939-948), [ordering] (950-958), [catch] (968-984), [handle] (986-999):
    the last three change nothing. *)
Definition c_block (b : p_block) : option e_block :=
  match b with PBEmpty => Some EBEmpty | PBFunc i => Some (EBFunc i) | PBType v => option_map EBResult (c_val v) end.
Definition c_memarg (m : p_memarg) : option e_memarg := Some (mkEMem (pm_offset m) (pm_align m) (pm_memory m)).
Definition c_ordering (o : ordering) : option ordering := Some o.
Definition c_catch (c : catch) : option catch := Some c.
Definition c_handle (h : handle) : option handle := Some h.
(** [map $arg targets] (reencode.rs:1729-1735). *)
Definition c_br_table (b : p_br_table) : option (list Z * Z) :=
  match br_targets b with Ok l => Some (l, pb_default b) | Err _ => None end.
(** [build TryTable] (reencode.rs:1765-1770), [map $arg resume_table] (1751-1756). *)
Definition c_try_table (t : p_try_table) : option (e_block * list catch) :=
  match c_block (pt_ty t), all_some c_catch (pt_catches t) with Some b, Some l => Some (b, l) | _, _ => None end.
Definition c_handles (l : list handle) : option (list handle) := all_some c_handle l.
Definition c_vals (l : list p_val) : option (list e_val) := all_some c_val l.
(** [V128::i128] (operators.rs:272-275). *)
Definition c_v128 (l : list Z) : option Z := Some (wraps 128 (from_le_bytes l)).
(** Immediates that are not translated, or are indices left unchanged by the default methods of [Reencode]. *)
Definition c_same {A} (a : A) : option A := Some a.
