(** Binary form of core WebAssembly types: the writers of wasm-encoder
    (crates/wasm-encoder/src/core/types.rs), the readers of wasmparser
    (crates/wasmparser/src/readers/core/types.rs), and the conversion from the
    latter's types to the former's (crates/wasm-encoder/src/reencode.rs). *)
From Verif.Base Require Import Prelude.
From Verif.Reader Require Import Model.
From Verif.Leb Require Import Model.
From Verif.Codec Require Import Kit.
From Verif.Types Require Import RefModel.

(** * wasm-encoder's types *)
(** [enum HeapType] (encoder types.rs:351-365); the abstract types are those of
    RefModel, [AbstractHeapType] being the same list in both crates. *)
Inductive e_heap := EAbs (shared : bool) (ty : aht) | EConcrete (i : Z) | EExact (i : Z).
(** [struct RefType] (types.rs:231-234), [enum ValType] (100-123). *)
Record e_ref := mkERef { er_null : bool; er_heap : e_heap }.
Inductive e_val := EI32 | EI64 | EF32 | EF64 | EV128 | ERef (r : e_ref).
(** [enum StorageType], [struct FieldType] (types.rs:63-79). *)
Inductive e_storage := EI8 | EI16 | EVal (v : e_val).
Record e_field := mkEField { ef_elem : e_storage; ef_mut : bool }.
(** [enum CompositeInnerType] (types.rs:31-42).  A [FuncType] is kept as its
    [params()] and [results()]. *)
Inductive e_inner :=
| EFunc (params results : list e_val) | EArray (f : e_field) | EStruct (fs : list e_field) | ECont (i : Z).
(** [struct CompositeType], [struct SubType] (types.rs:6-29). *)
Record e_comp := mkEComp { ec_inner : e_inner; ec_shared : bool; ec_descriptor : option Z; ec_describes : option Z }.
Record e_sub := mkESub { es_final : bool; es_super : option Z; es_comp : e_comp }.
(** One call on [TypeSection::ty()] (types.rs:543-549): [rec] or [subtype]. *)
Inductive e_rec := ERec (l : list e_sub) | ESingle (s : e_sub).

(** ** Writers *)
(** [Encode for AbstractHeapType] (types.rs:478-498). *)
Definition aht_byte (t : aht) : Z :=
  match t with
  | Func => 0x70 | Extern => 0x6F | Any => 0x6E | ANone => 0x71 | NoExtern => 0x72 | NoFunc => 0x73 | Eq => 0x6D
  | Struct => 0x6B | Array => 0x6A | I31 => 0x6C | Exn => 0x69 | NoExn => 0x74 | Cont => 0x68 | NoCont => 0x75
  end.
Definition enc_aht (t : aht) : out := o_byte (aht_byte t).
(** [Encode for HeapType] (types.rs:393-412). *)
Definition enc_heap (h : e_heap) : out :=
  match h with
  | EAbs shared ty => (if shared then o_byte 0x65 else o_nil) +++ enc_aht ty
  | EConcrete i => encode_s64 i
  | EExact i => o_byte 0x62 +++ encode_u32 i
  end.
(** [Encode for RefType] (types.rs:309-340). *)
Definition enc_ref (r : e_ref) : out :=
  match r with
  | mkERef true (EAbs s t) => enc_heap (EAbs s t)
  | mkERef true h => o_byte 0x63 +++ enc_heap h
  | mkERef false h => o_byte 0x64 +++ enc_heap h
  end.
(** [Encode for ValType] (types.rs:212-223), [Encode for StorageType] (202-210). *)
Definition enc_val (v : e_val) : out :=
  match v with
  | EI32 => o_byte 0x7F | EI64 => o_byte 0x7E | EF32 => o_byte 0x7D | EF64 => o_byte 0x7C | EV128 => o_byte 0x7B
  | ERef r => enc_ref r
  end.
Definition enc_storage (s : e_storage) : out :=
  match s with EI8 => o_byte 0x78 | EI16 => o_byte 0x77 | EVal v => enc_val v end.
(** [encode_field] (types.rs:625-628). *)
Definition enc_field (f : e_field) : out := enc_storage (ef_elem f) +++ o_byte (bit_of (ef_mut f)).
(** [encode_function], [encode_array], [encode_struct], [encode_cont] (types.rs:593-660). *)
Definition enc_inner (i : e_inner) : out :=
  match i with
  | EFunc ps rs => o_byte 0x60 +++ o_vec enc_val ps +++ o_vec enc_val rs
  | EArray f => o_byte 0x5e +++ enc_field f
  | EStruct fs => o_byte 0x5f +++ o_vec enc_field fs
  | ECont i => o_byte 0x5d +++ encode_s64 i
  end.
(** [Encode for Option<u32>] (lib.rs:183-196). *)
Definition enc_opt (o : option Z) : out :=
  match o with Some v => o_byte 1 +++ encode_u32 v | None => o_byte 0 end.
(** [encode_subtype] with [push_prefix_if_component_core_type] false (types.rs:668-706). *)
Definition enc_sub (s : e_sub) : out :=
  (if match es_super s with Some _ => true | None => false end || negb (es_final s)
   then (if es_final s then o_byte 0x4f else o_byte 0x50) +++ enc_opt (es_super s) else o_nil) +++
  (if ec_shared (es_comp s) then o_byte 0x65 else o_nil) +++
  match ec_describes (es_comp s) with Some i => o_byte 0x4c +++ encode_u32 i | None => o_nil end +++
  match ec_descriptor (es_comp s) with Some i => o_byte 0x4d +++ encode_u32 i | None => o_nil end +++
  enc_inner (ec_inner (es_comp s)).
(** [rec] (types.rs:709-725) and [subtype] (663-665). *)
Definition enc_rec (r : e_rec) : out :=
  match r with ERec l => o_byte 0x4e +++ o_vec enc_sub l | ESingle s => enc_sub s end.

(** * wasmparser's types *)
(** [enum ValType], [enum StorageType], [struct FieldType] (parser types.rs:862-880, 804-820, 795-801);
    a [RefType] is its packed [u32]. *)
Inductive p_val := PI32 | PI64 | PF32 | PF64 | PV128 | PRef (r : Z).
Inductive p_storage := PI8 | PI16 | PVal (v : p_val).
Record p_field := mkPField { pf_elem : p_storage; pf_mut : bool }.
(** [enum CompositeInnerType] (types.rs:571-583); a [FuncType] keeps one array and the number of
    parameters (types.rs:683-690); a [ContType] is a [PackedIndex]. *)
Inductive p_inner :=
| PFunc (params_results : list p_val) (len_params : nat) | PArray (f : p_field) | PStruct (fs : list p_field) | PCont (i : Z).
(** [struct CompositeType] (types.rs:556-568), [struct SubType] (469-478): indices are packed. *)
Record p_comp := mkPComp { pc_inner : p_inner; pc_shared : bool; pc_descriptor : option Z; pc_describes : option Z }.
Record p_sub := mkPSub { ps_final : bool; ps_super : option Z; ps_comp : p_comp }.
(** [struct RecGroup] (types.rs:315-327), without the offset of each type. *)
Inductive p_rec := PExplicit (l : list p_sub) | PImplicit (s : p_sub).

(** [FuncType::params], [results] (types.rs:732-741). *)
Definition pf_params (pr : list p_val) (n : nat) : list p_val := firstn n pr.
Definition pf_results (pr : list p_val) (n : nat) : list p_val := skipn n pr.

(** ** Readers *)
(** An error of kind [InvalidHeapType]: only [AbstractHeapType::from_reader] makes one
    (error.rs:64-66), and [set_message] keeps the kind, so it is recognised by its message. *)
Definition invalid_heap_type (e : error) : bool :=
  String.eqb (e_msg e) "invalid abstract heap type" || String.eqb (e_msg e) "invalid heap type"
  || String.eqb (e_msg e) "malformed reference type" || String.eqb (e_msg e) "invalid value type".
Definition reclassify (msg : string) (e : error) : error :=
  if invalid_heap_type e then mkError msg (e_off e) (e_hint e) else e.

(** [FromReader for AbstractHeapType] (types.rs:1900-1926). *)
Definition read_aht : R aht :=
  let* b := read_u8 in
  if b =? 0x70 then ret Func else if b =? 0x6F then ret Extern else if b =? 0x6E then ret Any
  else if b =? 0x71 then ret ANone else if b =? 0x72 then ret NoExtern else if b =? 0x73 then ret NoFunc
  else if b =? 0x6D then ret Eq else if b =? 0x6B then ret Struct else if b =? 0x6A then ret Array
  else if b =? 0x6C then ret I31 else if b =? 0x69 then ret Exn else if b =? 0x74 then ret NoExn
  else if b =? 0x68 then ret Cont else if b =? 0x75 then ret NoCont
  else fail_at "invalid abstract heap type" 1.

(** Read on a clone; commit to it when [c] holds of the value, start again otherwise. *)
Definition lookahead {A B} (m : R A) (c : A -> bool) (f : A -> R B) (g : R B) : R B :=
  fun r => match m r with
           | Err e => Err e
           | Ok (a, r') => if c a then f a r' else g r
           end.
(** [u32::try_from] on an [i64]. *)
Definition is_u32 (v : Z) : bool := (0 <=? v) && (v <? 2 ^ 32).

(** [PackedIndex::from_module_index(i).ok_or_else(..)]. *)
Definition packed_or_limit (i : Z) : R Z :=
  match from_module_index i with Some p => ret p | None => fail_at "type index greater than implementation limits" 0 end.
(** [idx.unpack()] just after [from_module_index]. *)
Definition unpack_or_panic (p : Z) : R uidx := match unpack p with Some u => ret u | None => fail_at "panic" 0 end.

(** [FromReader for HeapType] (types.rs:1849-1898). *)
Definition read_heap : R heap_type :=
  lookahead read_var_s33 is_u32
    (fun i => let* p := packed_or_limit i in let* u := unpack_or_panic p in ret (HConcrete u))
    (let* b := peek in
     if b =? 0x65 then let* _ := read_u8 in let* ty := read_aht in ret (HAbstract true ty)
     else if b =? 0x62 then let* _ := read_u8 in let* i := read_var_u32 in ret (HExact (UModule i))
     else let* ty := map_err (reclassify "invalid heap type") read_aht in ret (HAbstract false ty)).

(** [FromReader for RefType] (types.rs:1812-1847). *)
Definition read_ref : R Z :=
  let* pos := get_pos in
  let* b := peek in
  if (b =? 0x63) || (b =? 0x64) then
    let* b := read_u8 in
    let* h := read_heap in
    match ref_new (b =? 0x63) h with Some r => ret r | None => fail_pos "type index too large" pos end
  else if b =? 0x62 then fail_pos "unexpected exact type" pos
  else
    let* b := peek in
    let* _ := if b =? 0x65 then read_u8 else ret 0 in
    let* ty := map_err (reclassify "malformed reference type") read_aht in
    match ref_new true (HAbstract (b =? 0x65) ty) with Some r => ret r | None => fail_pos "panic" pos end.

(** [FromReader for ValType] (types.rs:1721-1810). *)
Definition read_val : R p_val :=
  let* b := peek in
  if b =? 0x7F then let* _ := read_u8 in ret PI32
  else if b =? 0x7E then let* _ := read_u8 in ret PI64
  else if b =? 0x7D then let* _ := read_u8 in ret PF32
  else if b =? 0x7C then let* _ := read_u8 in ret PF64
  else if b =? 0x7B then let* _ := read_u8 in ret PV128
  else let* r := map_err (reclassify "invalid value type") read_ref in ret (PRef r).

(** [FromReader for StorageType] (types.rs:1703-1719). *)
Definition read_storage : R p_storage :=
  let* b := peek in
  if b =? 0x78 then let* _ := read_u8 in ret PI8
  else if b =? 0x77 then let* _ := read_u8 in ret PI16
  else let* v := read_val in ret (PVal v).

(** [FromReader for FieldType] (types.rs:2217-2233). *)
Definition read_field : R p_field :=
  let* s := read_storage in
  let* m := read_u8 in
  if m =? 0 then ret (mkPField s false) else if m =? 1 then ret (mkPField s true)
  else fail_at "malformed mutability byte for field type" 0.

Definition MAX_WASM_TYPES : Z := 1000000.
Definition MAX_WASM_SUPERTYPES : Z := 1.
Definition MAX_WASM_FUNCTION_PARAMS : Z := 1000.
Definition MAX_WASM_FUNCTION_RETURNS : Z := 1000.
Definition MAX_WASM_STRUCT_FIELDS : Z := 10000.

(** [FromReader for FuncType] (types.rs:2202-2215), [ArrayType] (2235-2239), [StructType]
    (2241-2248), [ContType] (2250-2267), and the match of [read_composite_type] (2124-2130). *)
Definition read_inner (opcode : Z) : R p_inner :=
  if opcode =? 0x60 then
    let* ps := read_list MAX_WASM_FUNCTION_PARAMS "function params" read_val in
    let* rs := read_list MAX_WASM_FUNCTION_RETURNS "function returns" read_val in
    ret (PFunc (ps ++ rs) (List.length ps))
  else if opcode =? 0x5e then let* f := read_field in ret (PArray f)
  else if opcode =? 0x5f then let* fs := read_list MAX_WASM_STRUCT_FIELDS "struct fields" read_field in ret (PStruct fs)
  else if opcode =? 0x5d then
    let* i := read_var_s33 in
    if is_u32 i then let* p := packed_or_limit i in ret (PCont p)
    else fail_at "invalid continuation type" 0
  else fail_at "invalid leading byte" 1.

(** An optional index introduced by the byte [mark], as in [read_composite_type] (types.rs:2100-2123):
    the index, and the byte that follows. *)
Definition read_marked (mark opcode : Z) : R (option Z * Z) :=
  if opcode =? mark then
    let* i := read_var_u32 in let* p := packed_or_limit i in let* b := read_u8 in ret (Some p, b)
  else ret (None, opcode).
(** [read_composite_type] (types.rs:2094-2137). *)
Definition read_comp (opcode : Z) : R p_comp :=
  let* so := if opcode =? 0x65 then let* b := read_u8 in ret (true, b) else ret (false, opcode) in
  let* ds := read_marked 0x4c (snd so) in
  let* dr := read_marked 0x4d (snd ds) in
  let* inner := read_inner (snd dr) in
  ret (mkPComp inner (fst so) (fst dr) (fst ds)).

(** [FromReader for SubType] (types.rs:2163-2200). *)
Definition read_sub : R p_sub :=
  let* pos := get_pos in
  let* opcode := read_u8 in
  if (opcode =? 0x4f) || (opcode =? 0x50) then
    let* idxs := read_list MAX_WASM_SUPERTYPES "supertype idxs" read_var_u32 in
    if 1 <? zlen idxs then fail_pos "multiple supertypes not supported" pos
    else
      let* sup := match idxs with
                  | [] => ret None
                  | i :: _ => let* p := packed_or_limit i in ret (Some p)
                  end in
      let* b := read_u8 in
      let* c := read_comp b in
      ret (mkPSub (opcode =? 0x4f) sup c)
  else let* c := read_comp opcode in ret (mkPSub true None c).

(** [FromReader for RecGroup] (types.rs:2139-2161). *)
Definition read_rec : R p_rec :=
  let* b := peek in
  if b =? 0x4e then
    let* _ := read_u8 in
    let* l := read_list MAX_WASM_TYPES "rec group types" read_sub in
    ret (PExplicit l)
  else let* s := read_sub in ret (PImplicit s).

(** * Conversion, as [Reencode] does it with no renumbering *)
(** [mapM] over a list: [iter().map(f).collect::<Result<_>>()]. *)
Fixpoint all_some {A B} (f : A -> option B) (l : list A) : option (list B) :=
  match l with
  | [] => Some []
  | a :: t => match f a, all_some f t with Some b, Some bs => Some (b :: bs) | _, _ => None end
  end.
(** [type_index_unpacked] (reencode.rs:1072-1079) applied to [i.unpack()]. *)
Definition c_uidx (u : uidx) : option Z := match u with UModule i => Some i | _ => None end.
Definition c_index (p : Z) : option Z := match unpack p with Some u => c_uidx u | None => None end.
Definition c_opt_index (o : option Z) : option (option Z) :=
  match o with None => Some None | Some p => match c_index p with Some i => Some (Some i) | None => None end end.
(** [heap_type] (reencode.rs:1280-1297), [ref_type] (1270-1278), [val_type] (1256-1268). *)
Definition c_heap (h : heap_type) : option e_heap :=
  match h with
  | HConcrete u => option_map EConcrete (c_uidx u)
  | HExact u => option_map EExact (c_uidx u)
  | HAbstract s t => Some (EAbs s t)
  end.
Definition c_ref (r : Z) : option e_ref :=
  match heap_type_of r with
  | Some h => option_map (mkERef (is_nullable r)) (c_heap h)
  | None => None
  end.
Definition c_val (v : p_val) : option e_val :=
  match v with
  | PI32 => Some EI32 | PI64 => Some EI64 | PF32 => Some EF32 | PF64 => Some EF64 | PV128 => Some EV128
  | PRef r => option_map ERef (c_ref r)
  end.
(** [storage_type] (reencode.rs:1236-1245), [field_type] (1226-1234). *)
Definition c_storage (s : p_storage) : option e_storage :=
  match s with PI8 => Some EI8 | PI16 => Some EI16 | PVal v => option_map EVal (c_val v) end.
Definition c_field (f : p_field) : option e_field :=
  option_map (fun s => mkEField s (pf_mut f)) (c_storage (pf_elem f)).
(** [composite_type] (reencode.rs:1160-1190) with [func_type] (1192-1204), [array_type], [struct_type]
    (1206-1224), [cont_type] (1247-1254). *)
Definition c_inner (i : p_inner) : option e_inner :=
  match i with
  | PFunc pr n =>
      match all_some c_val (pf_params pr n), all_some c_val (pf_results pr n) with
      | Some ps, Some rs => Some (EFunc ps rs)
      | _, _ => None
      end
  | PArray f => option_map EArray (c_field f)
  | PStruct fs => option_map EStruct (all_some c_field fs)
  | PCont p => option_map ECont (c_index p)
  end.
Definition c_comp (c : p_comp) : option e_comp :=
  match c_inner (pc_inner c), c_opt_index (pc_descriptor c), c_opt_index (pc_describes c) with
  | Some i, Some d, Some s => Some (mkEComp i (pc_shared c) d s)
  | _, _, _ => None
  end.
(** [sub_type] (reencode.rs:1146-1158), [parse_recursive_type_group] (1128-1144). *)
Definition c_sub (s : p_sub) : option e_sub :=
  match c_opt_index (ps_super s), c_comp (ps_comp s) with
  | Some i, Some c => Some (mkESub (ps_final s) i c)
  | _, _ => None
  end.
Definition c_rec (r : p_rec) : option e_rec :=
  match r with
  | PExplicit l => option_map ERec (all_some c_sub l)
  | PImplicit s => option_map ESingle (c_sub s)
  end.
