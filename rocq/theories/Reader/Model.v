(** Model of [BinaryReader], crates/wasmparser/src/binary_reader.rs.

    Simplifications, valid for the whole file:
    - the Rust struct keeps the whole buffer and a position; the model keeps the
      bytes that remain ([r_rem], i.e. [&buffer[position..]]) together with
      [position] and [original_offset].  Consumed bytes are never read again
      through a reader, so nothing observable is lost;
    - a failing operation returns only the error, not the reader as it was when
      it failed (every caller in the modelled code propagates with [?]);
    - error messages built with [format!] are abbreviated to their fixed part. *)
From Verif.Base Require Import Prelude Utf8.

(** The switches of [WasmFeatures] that change what the *parser* does:
    [multi_memory] and [memory64] in [read_memarg] (binary_reader.rs:1941-1965),
    [call_indirect_overlong] in [read_call_indirect_table_immediate]
    (binary_reader.rs:2023-2036), [legacy_exceptions] in [visit_operator]
    (binary_reader.rs:853-875, 904-916). *)
Record features := mkFeatures
  { f_multi_memory : bool; f_memory64 : bool; f_call_indirect_overlong : bool; f_legacy_exceptions : bool }.

(** [WasmFeatures::all()], the default of [BinaryReader::new] (binary_reader.rs:64-77). *)
Definition all_features : features := mkFeatures true true true true.

(** [struct BinaryReader] (binary_reader.rs:34-48). *)
Record reader := mkReader
  { r_rem : list Z; r_pos : Z; r_off : Z; r_feat : features }.

(** [BinaryReader::new] (binary_reader.rs:64-77).  The panic for
    [original_offset + len > u64::MAX] is not modelled here (see Parser/Model.v
    for the guard the parser applies before calling it). *)
Definition new_reader (f : features) (data : list Z) (off : Z) : reader :=
  mkReader data 0 off f.

(** [original_position] (binary_reader.rs:162-165). *)
Definition original_position (r : reader) : Z := r_off r + r_pos r.

(** [bytes_remaining] (binary_reader.rs:304-307). *)
Definition bytes_remaining (r : reader) : Z := zlen (r_rem r).

(** [eof] (binary_reader.rs:291-295). *)
Definition eof (r : reader) : bool :=
  match r_rem r with [] => true | _ => false end.

(** [range] (binary_reader.rs:184-187). *)
Definition range (r : reader) : Z * Z :=
  (r_off r, r_off r + r_pos r + zlen (r_rem r)).

(** [shrink] (binary_reader.rs:148-158). *)
Definition shrink (r : reader) : reader :=
  mkReader (r_rem r) 0 (original_position r) (r_feat r).

(** The reader moved forward over [l], whose successor bytes are [rest]. *)
Definition advance (r : reader) (n : Z) (rest : list Z) : reader :=
  mkReader rest (r_pos r + n) (r_off r) (r_feat r).

(** [eof_err] (binary_reader.rs:367-370). *)
Definition eof_err (r : reader) (hint : Z) : error :=
  err_eof (original_position r) hint.

(** Reader operations: Rust methods taking [&mut self] and returning [Result]. *)
Definition R (A : Type) : Type := reader -> res (A * reader).

Definition ret {A} (a : A) : R A := fun r => Ok (a, r).
Definition bind {A B} (m : R A) (f : A -> R B) : R B :=
  fun r => match m r with Ok (a, r') => f a r' | Err e => Err e end.
(** [Err(Error::new(msg, self.original_position() - d))]. *)
Definition fail_at {A} (msg : string) (d : Z) : R A :=
  fun r => Err (err_new msg (original_position r - d)).
(** [Err(Error::new(msg, pos))] for a position saved earlier. *)
Definition fail_pos {A} (msg : string) (pos : Z) : R A :=
  fun _ => Err (err_new msg pos).
Definition get_pos : R Z := fun r => Ok (original_position r, r).

Declare Scope reader_scope.
Delimit Scope reader_scope with reader.
Notation "'let*' x ':=' m 'in' k" := (bind m (fun x => k))
  (at level 200, x pattern, m at level 100, k at level 200, right associativity)
  : reader_scope.
Open Scope reader_scope.

(** [read_u8] (binary_reader.rs:356-365). *)
Definition read_u8 : R Z := fun r =>
  match r_rem r with
  | b :: t => Ok (b, advance r 1 t)
  | [] => Err (eof_err r 1)
  end.

(** [peek] (binary_reader.rs:665-668). *)
Definition peek : R Z := fun r =>
  match r_rem r with
  | b :: _ => Ok (b, r)
  | [] => Err (eof_err r 1)
  end.

(** [ensure_has_bytes] + [read_bytes] (binary_reader.rs:214-221, 314-319). *)
Definition read_bytes (size : Z) : R (list Z) := fun r =>
  if size <=? bytes_remaining r then
    let bs := firstn (Z.to_nat size) (r_rem r) in
    Ok (bs, advance r (zlen bs) (skipn (Z.to_nat size) (r_rem r)))
  else Err (eof_err r (size - bytes_remaining r)).

(** [peek_bytes] (binary_reader.rs:670-674). *)
Definition peek_bytes (size : Z) : R (list Z) := fun r =>
  if size <=? bytes_remaining r then
    Ok (firstn (Z.to_nat size) (r_rem r), r)
  else Err (eof_err r (size - bytes_remaining r)).

(** [u32::from_le_bytes] / [u64::from_le_bytes]. *)
Fixpoint from_le_bytes (l : list Z) : Z :=
  match l with [] => 0 | b :: t => b + 256 * from_le_bytes t end.

(** [read_u32] (binary_reader.rs:334-338), [read_u64] (binary_reader.rs:343-347). *)
Definition read_u32 : R Z := let* c := read_bytes 4 in ret (from_le_bytes c).
Definition read_u64 : R Z := let* c := read_bytes 8 in ret (from_le_bytes c).

(** [read_f32] / [read_f64] (binary_reader.rs:594-606): the bit pattern. *)
Definition read_f32 : R Z := read_u32.
Definition read_f64 : R Z := read_u64.

(** [read_u7] (binary_reader.rs:233-239). *)
Definition read_u7 : R Z :=
  let* b := read_u8 in
  if negb (Z.land b 0x80 =? 0) then fail_at "invalid u7" 1 else ret b.

(** The loop of [read_var_u32_big] (binary_reader.rs:391-411), and of
    [read_var_u64_big] (433-453), which is the same text with [bits] = 64 and
    [thr] = 57 in place of 32 and 25.  [res0] is the variable [result]; the
    recursion is on the remaining bytes because each iteration reads one. *)
Fixpoint var_u_loop (bits thr : Z) (toolong toolarge : string)
         (l : list Z) (pos off : Z) (ft : features) (res0 shift : Z)
  : res (Z * reader) :=
  match l with
  | [] => Err (err_eof (off + pos) 1)
  | byte :: t =>
      let pos := pos + 1 in
      let result := Z.lor res0 (wrapu bits (Z.shiftl (Z.land byte 0x7f) shift)) in
      if (thr <=? shift) && negb (Z.shiftr byte (bits - shift) =? 0) then
        Err (err_new (if negb (Z.land byte 0x80 =? 0) then toolong else toolarge)
                     (off + pos - 1))
      else
        let shift := shift + 7 in
        if Z.land byte 0x80 =? 0 then Ok (result, mkReader t pos off ft)
        else var_u_loop bits thr toolong toolarge t pos off ft result shift
  end.

(** [read_var_u32] and [read_var_u32_big] (binary_reader.rs:380-411). *)
Definition read_var_u32 : R Z :=
  let* byte := read_u8 in
  if Z.land byte 0x80 =? 0 then ret byte
  else fun r => var_u_loop 32 25 "invalid var_u32: integer representation too long"
                  "invalid var_u32: integer too large"
                  (r_rem r) (r_pos r) (r_off r) (r_feat r) (Z.land byte 0x7f) 7.

(** [read_var_u64] and [read_var_u64_big] (binary_reader.rs:422-453). *)
Definition read_var_u64 : R Z :=
  let* byte := read_u8 in
  if Z.land byte 0x80 =? 0 then ret byte
  else fun r => var_u_loop 64 57 "invalid var_u64: integer representation too long"
                  "invalid var_u64: integer too large"
                  (r_rem r) (r_pos r) (r_off r) (r_feat r) (Z.land byte 0x7f) 7.

(** The loop shared by [read_var_i32_big] (binary_reader.rs:501-529),
    [read_var_s33] (544-564) and [read_var_i64] (568-589):
    [bits] is the logical width, [mbits] the width of the machine type that
    accumulates ([i32], [i64], [i64]), [thr] the shift from which the last byte
    is checked, [toolong]/[toolarge] the messages. *)
Fixpoint var_s_loop (bits mbits thr : Z) (toolong toolarge : string)
         (l : list Z) (pos off : Z) (ft : features) (res0 shift : Z)
  : res (Z * reader) :=
  match l with
  | [] => Err (err_eof (off + pos) 1)
  | byte :: t =>
      let pos := pos + 1 in
      let result := Z.lor res0 (wraps mbits (Z.shiftl (Z.land byte 0x7f) shift)) in
      if thr <=? shift then
        let continuation_bit := negb (Z.land byte 0x80 =? 0) in
        let sign_and_unused_bit :=
          Z.shiftr (wraps 8 (wrapu 8 (Z.shiftl byte 1))) (bits - shift) in
        if continuation_bit
           || (negb (sign_and_unused_bit =? 0) && negb (sign_and_unused_bit =? -1))
        then Err (err_new (if continuation_bit then toolong else toolarge)
                          (off + pos - 1))
        else Ok (result, mkReader t pos off ft)
      else
        let shift := shift + 7 in
        if Z.land byte 0x80 =? 0 then
          let ashift := mbits - shift in
          Ok (Z.shiftr (wraps mbits (Z.shiftl result ashift)) ashift,
              mkReader t pos off ft)
        else var_s_loop bits mbits thr toolong toolarge t pos off ft result shift
  end.

(** [read_var_i32] and [read_var_i32_big] (binary_reader.rs:490-529). *)
Definition read_var_i32 : R Z :=
  let* byte := read_u8 in
  if Z.land byte 0x80 =? 0 then ret (Z.shiftr (wraps 32 (Z.shiftl byte 25)) 25)
  else fun r => var_s_loop 32 32 25 "invalid var_i32: integer representation too long"
                  "invalid var_i32: integer too large"
                  (r_rem r) (r_pos r) (r_off r) (r_feat r) (Z.land byte 0x7f) 7.

(** [read_var_s33] (binary_reader.rs:536-564).  Both failures of the last byte
    have the same message. *)
Definition read_var_s33 : R Z :=
  let* byte := read_u8 in
  if Z.land byte 0x80 =? 0 then
    ret (Z.shiftr (wraps 8 (Z.shiftl (wraps 8 byte) 1)) 1)
  else fun r => var_s_loop 33 64 25 "invalid var_s33: integer representation too long"
                  "invalid var_s33: integer representation too long"
                  (r_rem r) (r_pos r) (r_off r) (r_feat r) (Z.land byte 0x7f) 7.

(** [read_var_i64] (binary_reader.rs:562-589): no single-byte fast path. *)
Definition read_var_i64 : R Z :=
  fun r => var_s_loop 64 64 57 "invalid var_i64: integer representation too long"
             "invalid var_i64: integer too large"
             (r_rem r) (r_pos r) (r_off r) (r_feat r) 0 0.

(** [limits::MAX_WASM_STRING_SIZE] (crates/wasmparser/src/limits.rs:33). *)
Definition MAX_WASM_STRING_SIZE : Z := 100000.

(** [internal_read_string] (binary_reader.rs:608-613): the bytes of the string,
    which must be valid UTF-8.  [utf8_valid] models [str::from_utf8]. *)
Definition internal_read_string (len : Z) : R (list Z) :=
  let* bytes := read_bytes len in
  if utf8_valid bytes then ret bytes
  else fail_at "malformed UTF-8 encoding" 1.

(** [read_string] (binary_reader.rs:622-632). *)
Definition read_string : R (list Z) :=
  let* len := read_var_u32 in
  if MAX_WASM_STRING_SIZE <? len then fail_at "string size out of bounds" 1
  else internal_read_string len.

(** [read_unlimited_string] (binary_reader.rs:639-642). *)
Definition read_unlimited_string : R (list Z) :=
  let* len := read_var_u32 in internal_read_string len.

(** [skip_string] (binary_reader.rs:474-485). *)
Definition skip_string : R unit :=
  let* len := read_var_u32 in
  if MAX_WASM_STRING_SIZE <? len then fail_at "string size out of bounds" 1
  else let* _ := read_bytes len in ret tt.

(** A [BinaryReaderIter] collected to a list (binary_reader.rs:783-813): [n]
    items read one after the other, stopping at the first error. *)
Fixpoint read_n {A} (n : nat) (item : R A) : R (list A) :=
  match n with
  | O => ret []
  | S k => let* a := item in let* l := read_n k item in ret (a :: l)
  end.

(** [read_size] (binary_reader.rs:253-262). *)
Definition read_size (limit : Z) (desc : string) : R Z :=
  let* pos := get_pos in
  let* size := read_var_u32 in
  if limit <? size then fail_pos (desc ++ " size is out of bounds")%string pos
  else ret size.

(** [read_iter(limit, desc)?.collect()] (binary_reader.rs:271-285). *)
Definition read_list {A} (limit : Z) (desc : string) (item : R A) : R (list A) :=
  let* n := read_size limit desc in read_n (Z.to_nat n) item.

(** [skip] with [read_bytes(size)], i.e. the body of [read_reader]
    (binary_reader.rs:323-329, 455-465). *)
Definition skip_bytes (size : Z) : R reader := fun r =>
  match read_bytes size r with
  | Ok (bs, r') => Ok (mkReader bs 0 (original_position r) (r_feat r), r')
  | Err e => Err e
  end.

(** [read_reader] (binary_reader.rs:323-329). *)
Definition read_reader : R reader :=
  let* size := read_var_u32 in skip_bytes size.
