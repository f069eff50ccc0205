(** Inline data of memories in the text format (crates/wast/src/core/memory.rs, types.rs, resolve/deinline_import_export.rs). *)
From Coq Require Import List ZArith Bool.
Import ListNotations.
Open Scope Z_scope.

(** [to_le_bytes] of an integer of [w] bytes, in two's complement. *)
Fixpoint to_le (w : nat) (v : Z) : list Z := match w with O => [] | S w => v mod 256 :: to_le w (v / 256) end.
(** [DataVal] as written (memory.rs:241-286): strings, or the numbers of one list with their width; floats and vectors by their bits. *)
Inductive written := Str (b : list Z) | Nums (w : nat) (vs : list Z).
(** The bytes that [parse] keeps of it (memory.rs:247-284), [len] (225-230) and [push_onto] (233-238). *)
Definition kept (d : written) : list Z := match d with Str b => b | Nums w vs => fold_left (fun dst v => dst ++ to_le w v) vs [] end.
Definition len (d : written) : Z := Z.of_nat (length (kept d)).
Definition push_onto (dst : list Z) (d : written) : list Z := dst ++ kept d.
(** [page_size] (types.rs:660-678) on the number of the text. *)
Definition page_size (size : Z) : option Z := if (0 <? size) && (2 ^ Z.log2 size =? size) then Some (Z.log2 size) else None.
(** Limits of the memory and the active segment: its offset is a constant 0 of 64 bits or of 32. *)
Record memory := mkMem { m_is64 : bool; m_min : Z; m_max : option Z; m_shared : bool; m_log2 : option Z }.
Record segment := mkSeg { s_const64 : bool; s_offset : Z; s_bytes : list Z }.
Inductive outcome (A : Type) := Done (a : A) | Panicked.
Arguments Done {A} a. Arguments Panicked {A}.
(** The inline case of memories (deinline_import_export.rs:54-95) with the checks of arithmetic on 64 bits; the bytes of the segment are put together when it is written (binary.rs). *)
Definition u64 : Z := 2 ^ 64.
Definition inline_memory (is64 : bool) (log2 : option Z) (data : list written) : outcome (memory * segment) :=
  let total := fold_left (fun n d => n + len d) data 0 in
  if u64 <=? total then Panicked else
  match (match log2 with Some k => if 64 <=? k then Panicked else Done (2 ^ k) | None => Done 65536 end) with
  | Panicked => Panicked
  | Done size =>
    if u64 <=? total + size then Panicked else
    if size =? 0 then Panicked else
    let pages := (total + size - 1) / size in
    Done (mkMem is64 pages (Some pages) false log2, mkSeg is64 0 (fold_left push_onto data []))
  end.
