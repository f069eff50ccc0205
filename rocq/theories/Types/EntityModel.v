(** Binary form of the types of tables, memories, globals, tags, imports and
    exports, and of the sections that list them: the writers of wasm-encoder
    (crates/wasm-encoder/src/core), the readers of wasmparser
    (crates/wasmparser/src/readers/core), the conversions of
    crates/wasm-encoder/src/reencode.rs.
    Not modelled: initial values of tables and globals (constant expressions). *)
From Verif.Base Require Import Prelude.
From Verif.Reader Require Import Model.
From Verif.Leb Require Import Model.
From Verif.Codec Require Import Kit.
From Verif.Types Require Import RefModel CodecModel.

(** [struct TableType] in wasmparser (types.rs:1948-1965) and wasm-encoder (tables.rs:81-96), whose
    element types differ; [struct GlobalType] (types.rs:2027-2035, globals.rs:77-85) likewise;
    [struct MemoryType] (types.rs:1977-2014, memories.rs:68-91) and [struct TagType]
    (types.rs:2066-2071, tags.rs:73-79) have the same fields in both.  [TagKind] has one value. *)
Record table_ty (E : Type) := mkTable { t_elem : E; t_64 : bool; t_min : Z; t_max : option Z; t_shared : bool }.
Record global_ty (V : Type) := mkGlobal { g_val : V; g_mut : bool; g_shared : bool }.
Record memory_ty := mkMemory { m_64 : bool; m_shared : bool; m_min : Z; m_max : option Z; m_page : option Z }.
Arguments mkTable {E}. Arguments t_elem {E}. Arguments t_64 {E}. Arguments t_min {E}. Arguments t_max {E}. Arguments t_shared {E}.
Arguments mkGlobal {V}. Arguments g_val {V}. Arguments g_mut {V}. Arguments g_shared {V}.
(** [enum EntityType] (encoder imports.rs:11-29), [enum TypeRef] (parser imports.rs:24-41); a tag
    is its function type. *)
Inductive entity (E V : Type) :=
| NFunc (i : Z) | NTable (t : table_ty E) | NMemory (m : memory_ty) | NGlobal (g : global_ty V) | NTag (i : Z) | NFuncExact (i : Z).
Arguments NFunc {E V}. Arguments NTable {E V}. Arguments NMemory {E V}. Arguments NGlobal {E V}. Arguments NTag {E V}. Arguments NFuncExact {E V}.
Notation e_entity := (entity e_ref e_val).
Notation p_entity := (entity Z p_val).

(** * Writers *)
Definition is_some {A} (o : option A) : bool := match o with Some _ => true | None => false end.
(** A byte with bit [i] set where the [i]th boolean is true: [flags |= ..]. *)
Fixpoint flag_bits (l : list bool) : Z := match l with [] => 0 | b :: t => bit_of b + 2 * flag_bits t end.
Definition o_opt (f : Z -> out) (o : option Z) : out := match o with Some v => f v | None => o_nil end.
(** [Encode for TableType] (tables.rs:109-130). *)
Definition enc_table (t : table_ty e_ref) : out :=
  enc_ref (t_elem t) +++ o_byte (flag_bits [is_some (t_max t); t_shared t; t_64 t]) +++
  encode_u64 (t_min t) +++ o_opt encode_u64 (t_max t).
(** [Encode for MemoryType] (memories.rs:93-116). *)
Definition enc_memory (m : memory_ty) : out :=
  o_byte (flag_bits [is_some (m_max m); m_shared m; m_64 m; is_some (m_page m)]) +++
  encode_u64 (m_min m) +++ o_opt encode_u64 (m_max m) +++ o_opt encode_u32 (m_page m).
(** [Encode for GlobalType] (globals.rs:87-99). *)
Definition enc_global (g : global_ty e_val) : out := enc_val (g_val g) +++ o_byte (flag_bits [g_mut g; g_shared g]).
(** [Encode for TagType] (tags.rs:81-86). *)
Definition enc_tag (i : Z) : out := o_byte 0 +++ encode_u32 i.
(** [Encode for EntityType] (imports.rs:31-60), sorts from core.rs:43-49. *)
Definition enc_entity (n : e_entity) : out :=
  match n with
  | NFunc i => o_byte 0x00 +++ encode_u32 i
  | NFuncExact i => o_byte 0x20 +++ encode_u32 i
  | NTable t => o_byte 0x01 +++ enc_table t
  | NMemory m => o_byte 0x02 +++ enc_memory m
  | NGlobal g => o_byte 0x03 +++ enc_global g
  | NTag i => o_byte 0x04 +++ enc_tag i
  end.
(** [enum ExportKind] (exports.rs:9-21); [ExportSection::export] (exports.rs:66-72). *)
Inductive export_kind := XFunc | XTable | XMemory | XGlobal | XTag.
Record export := mkExport { x_name : list Z; x_kind : export_kind; x_index : Z }.
Definition kind_byte (k : export_kind) : Z := match k with XFunc => 0 | XTable => 1 | XMemory => 2 | XGlobal => 3 | XTag => 4 end.
Definition enc_export (x : export) : out := o_str (x_name x) +++ o_byte (kind_byte (x_kind x)) +++ encode_u32 (x_index x).
(** [enum Imports] (imports.rs:105-128) and [ImportSection::imports] (imports.rs:178-208). *)
Record item := mkItem { i_name : list Z; i_ty : e_entity }.
Inductive e_imports :=
| ISingle (module name : list Z) (ty : e_entity)
| ICompact1 (module : list Z) (items : list item)
| ICompact2 (module : list Z) (ty : e_entity) (names : list (list Z)).
Definition enc_imports (i : e_imports) : out :=
  match i with
  | ISingle m n ty => o_str m +++ o_str n +++ enc_entity ty
  | ICompact1 m items => o_str m +++ o_byte 0x00 +++ o_byte 0x7F +++ o_vec (fun x => o_str (i_name x) +++ enc_entity (i_ty x)) items
  | ICompact2 m ty names => o_str m +++ o_byte 0x00 +++ o_byte 0x7E +++ enc_entity ty +++ o_vec o_str names
  end.

(** * Readers *)
(** A bound of a table or memory: [read_var_u64] if [memory64()], [read_var_u32] otherwise. *)
Definition read_limit : R Z := fun r => if f_memory64 (r_feat r) then read_var_u64 r else read_var_u32 r.
Definition read_opt {A} (c : bool) (m : R A) : R (option A) := if c then let* v := m in ret (Some v) else ret None.
(** [FromReader for TableType] (tables.rs:66-95). *)
Definition read_table : R (table_ty Z) :=
  let* e := read_ref in
  let* pos := get_pos in
  let* flags := read_u8 in
  if negb (Z.land flags (Z.lnot 7) =? 0) then fail_pos "invalid table resizable limits flags" pos
  else
    let* mn := read_limit in
    let* mx := read_opt (negb (Z.land flags 1 =? 0)) read_limit in
    ret (mkTable e (negb (Z.land flags 4 =? 0)) mn mx (negb (Z.land flags 2 =? 0))).
(** [FromReader for MemoryType] (memories.rs:21-60). *)
Definition read_memory : R memory_ty :=
  let* pos := get_pos in
  let* flags := read_u8 in
  if negb (Z.land flags (Z.lnot 15) =? 0) then fail_pos "invalid memory limits flags" pos
  else
    let* mn := read_limit in
    let* mx := read_opt (negb (Z.land flags 1 =? 0)) read_limit in
    let* pg := read_opt (negb (Z.land flags 8 =? 0))
                 (let* v := read_var_u32 in if 64 <=? v then fail_pos "invalid custom page size" pos else ret v) in
    ret (mkMemory (negb (Z.land flags 4 =? 0)) (negb (Z.land flags 2 =? 0)) mn mx pg).
(** [FromReader for GlobalType] (globals.rs:38-52). *)
Definition read_global : R (global_ty p_val) :=
  let* v := read_val in
  let* flags := read_u8 in
  if 3 <? flags then fail_at "malformed global flags" 1
  else ret (mkGlobal v (0 <? Z.land flags 1) (0 <? Z.land flags 2)).
(** [FromReader for TagType] (tags.rs:21-32). *)
Definition read_tag : R Z :=
  let* a := read_u8 in if negb (a =? 0) then fail_at "invalid tag attributes" 1 else read_var_u32.
(** [enum ExternalKind] (exports.rs:22-38), [external_kind_from_byte] (binary_reader.rs:238-248),
    [FromReader for ExternalKind] (exports.rs:70-76). *)
Inductive external_kind := KFunc | KTable | KMemory | KGlobal | KTag | KFuncExact.
Definition read_kind : R external_kind :=
  let* offset := get_pos in
  let* b := read_u8 in
  if b =? 0 then ret KFunc else if b =? 1 then ret KTable else if b =? 2 then ret KMemory else if b =? 3 then ret KGlobal
  else if b =? 4 then ret KTag else if b =? 0x20 then ret KFuncExact else fail_pos "invalid leading byte for external kind" offset.
(** [FromReader for TypeRef] (imports.rs:157-168). *)
Definition read_entity : R p_entity :=
  let* k := read_kind in
  match k with
  | KFunc => let* i := read_var_u32 in ret (NFunc i)
  | KFuncExact => let* i := read_var_u32 in ret (NFuncExact i)
  | KTable => let* t := read_table in ret (NTable t)
  | KMemory => let* m := read_memory in ret (NMemory m)
  | KGlobal => let* g := read_global in ret (NGlobal g)
  | KTag => let* i := read_tag in ret (NTag i)
  end.
(** [FromReader for Export] (exports.rs:51-68). *)
Record p_export := mkPExport { px_name : list Z; px_kind : external_kind; px_index : Z }.
Definition read_export : R p_export :=
  let* n := read_string in
  let* k := read_kind in
  match k with
  | KFuncExact => fail_at "Exact type is not allowed in the exports" 0
  | _ => let* i := read_var_u32 in ret (mkPExport n k i)
  end.

(** [BinaryReader::skip] (binary_reader.rs:446-455): the bytes [m] goes over.  The position of the
    new reader, used only in error offsets, is dropped. *)
Definition skip_raw {A} (m : R A) : R (list Z) :=
  fun r => match m r with
           | Err e => Err e
           | Ok (_, r') => Ok (firstn (Z.to_nat (r_pos r' - r_pos r)) (r_rem r), r')
           end.
(** [SectionLimited::new] and the iteration over it (readers.rs:101-108, 196-214): the count, the
    items, and nothing after them.  Given as a reader of the whole section. *)
Definition read_items {A} (item : R A) : R (list A) :=
  let* count := read_var_u32 in
  let* l := read_n (Z.to_nat count) item in
  fun r => if eof r then Ok (l, r) else fail_at "section size mismatch: unexpected data at the end of the section" 0 r.
(** A section of these bytes, starting at [off]. *)
Definition section_items {A} (item : R A) (ft : features) (off : Z) (bytes : list Z) : res (list A) :=
  match read_items item (new_reader ft bytes off) with Ok (l, _) => Ok l | Err e => Err e end.

(** [enum Imports] (imports.rs:44-66); the reader in a compact group is kept as its bytes. *)
Inductive p_imports :=
| QSingle (module name : list Z) (ty : p_entity)
| QCompact1 (module : list Z) (items : list Z)
| QCompact2 (module : list Z) (ty : p_entity) (names : list Z).
Definition is_empty {A} (l : list A) : bool := match l with [] => true | _ => false end.
(** [FromReader for Imports] (imports.rs:90-145), the compact-imports proposal being enabled.  The
    count that [SectionLimited::new] reads first was read by [skip] from the same bytes. *)
Definition read_imports : R p_imports :=
  let* m := read_string in
  let* n := read_string in
  let* d := peek_bytes 1 in
  if is_empty n && (nth 0 d 0 =? 0x7F) then
    let* _ := read_bytes 1 in
    let* items := skip_raw (let* c := read_var_u32 in
                            read_n (Z.to_nat c) (let* _ := skip_string in let* _ := read_entity in ret tt)) in
    ret (QCompact1 m items)
  else if is_empty n && (nth 0 d 0 =? 0x7E) then
    let* _ := read_bytes 1 in
    let* ty := read_entity in
    let* names := skip_raw (let* c := read_var_u32 in read_n (Z.to_nat c) skip_string) in
    ret (QCompact2 m ty names)
  else let* ty := read_entity in ret (QSingle m n ty).
(** [FromReader for ImportItemCompact] (imports.rs:148-155). *)
Definition read_item : R (list Z * p_entity) := let* n := read_string in let* ty := read_entity in ret (n, ty).

(** [ImportsIter] (imports.rs:255-315): the imports of a group one by one. *)
Definition flatten_imports (ft : features) (off : Z) (i : p_imports) : res (list (list Z * list Z * p_entity)) :=
  match i with
  | QSingle m n ty => Ok [(m, n, ty)]
  | QCompact1 m items =>
      match section_items read_item ft off items with Ok l => Ok (map (fun x => (m, fst x, snd x)) l) | Err e => Err e end
  | QCompact2 m ty names =>
      match section_items read_string ft off names with Ok l => Ok (map (fun n => (m, n, ty)) l) | Err e => Err e end
  end.

(** * Conversions *)
(** [table_type] (reencode.rs:1329-1340), [global_type] (1411-1420), [memory_type] (1046-1057),
    [tag_type] (1081-1089), [entity_type] (1422-1437), [export_kind] (1031-1044), [parse_export]
    (1371-1382), [parse_imports] (1454-1489).  Those of memories and tags copy every field. *)
Definition c_table (t : table_ty Z) : option (table_ty e_ref) :=
  option_map (fun e => mkTable e (t_64 t) (t_min t) (t_max t) (t_shared t)) (c_ref (t_elem t)).
Definition c_global (g : global_ty p_val) : option (global_ty e_val) :=
  option_map (fun v => mkGlobal v (g_mut g) (g_shared g)) (c_val (g_val g)).
Definition c_entity (n : p_entity) : option e_entity :=
  match n with
  | NFunc i => Some (NFunc i) | NFuncExact i => Some (NFuncExact i) | NMemory m => Some (NMemory m) | NTag i => Some (NTag i)
  | NTable t => option_map NTable (c_table t)
  | NGlobal g => option_map NGlobal (c_global g)
  end.
Definition c_kind (k : external_kind) : export_kind :=
  match k with KFunc | KFuncExact => XFunc | KTable => XTable | KMemory => XMemory | KGlobal => XGlobal | KTag => XTag end.
Definition c_export (x : p_export) : option export := Some (mkExport (px_name x) (c_kind (px_kind x)) (px_index x)).
Definition c_item (x : list Z * p_entity) : option item := option_map (mkItem (fst x)) (c_entity (snd x)).
Definition c_imports (ft : features) (off : Z) (i : p_imports) : option e_imports :=
  match i with
  | QSingle m n ty => option_map (ISingle m n) (c_entity ty)
  | QCompact1 m items =>
      match section_items read_item ft off items with Ok l => option_map (ICompact1 m) (all_some c_item l) | Err _ => None end
  | QCompact2 m ty names =>
      match section_items read_string ft off names with
      | Ok l => option_map (fun t => ICompact2 m t l) (c_entity ty)
      | Err _ => None
      end
  end.
