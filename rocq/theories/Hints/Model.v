(** The custom section of branch hints: the writer of wasm-encoder (core/branch_hints.rs) and the reader of wasmparser (readers/core/branch_hinting.rs). *)
From Verif.Base Require Import Prelude Utf8.
From Verif.Reader Require Import Model.
From Verif.Leb Require Import Model.
From Verif.Encoder Require Import Model.
From Verif.Codec Require Import Kit.
From Verif.Types Require Import RefModel CodecModel EntityModel.

(** One hint as [BranchHints::function_hints] writes it (branch_hints.rs): offset, the size 1, the value. *)
Definition enc_hint (h : Z * Z) : out := encode_u32 (fst h) +++ encode_u32 1 +++ encode_u32 (snd h).
(** [function_hints]: the function, the number of its hints, the hints. *)
Definition enc_function (f : Z * list (Z * Z)) : out := encode_u32 (fst f) +++ o_vec enc_hint (snd f).
(** The data of the section, of one call of [function_hints] for each function. Simplification: the count of calls does not overflow. *)
Definition section_data (l : list (Z * list (Z * Z))) : out := encode_u32 (zlen l) +++ o_all enc_function l.
(** [FromReader for BranchHint] (branch_hinting.rs:47-61). *)
Definition read_hint : R (Z * bool) :=
  let* off := read_var_u32 in
  let* n := read_u8 in
  if n =? 1 then
    let* t := read_u8 in
    if t =? 0 then ret (off, false) else if t =? 1 then ret (off, true) else fail_at "invalid branch hint taken byte" 1
  else fail_at "invalid branch hint byte" 1.
(** [FromReader for BranchHintFunction] (branch_hinting.rs:18-34): the hints are skipped and kept as bytes, read again when they are iterated over. *)
Definition read_function : R (Z * list Z) :=
  let* func := read_var_u32 in
  let* hints := skip_raw (let* n := read_var_u32 in let* _ := read_n (Z.to_nat n) read_hint in ret tt) in
  ret (func, hints).
