(** Model of the contents of the table, global, element and data sections: the readers of wasmparser
    (crates/wasmparser/src/readers/core), the writers of wasm-encoder (crates/wasm-encoder/src/core) and
    the translation between the two (crates/wasm-encoder/src/reencode.rs) with its default methods.
    As elsewhere an expression or a list of items that a reader leaves for later is kept as its bytes, and
    the position it was found at, used in error offsets only, is dropped. *)
From Verif.Base Require Import Prelude.
From Verif.Reader Require Import Model.
From Verif.Leb Require Import Model.
From Verif.Codec Require Import Kit.
From Verif.Types Require Import RefModel CodecModel EntityModel.
From Verif.Instr Require Import ImmModel Ops Sink Visit Convert BodyModel.

(** A [ConstExpr] of wasm-encoder, by its instructions without the final [end]. *)
Notation e_const := (list instr).

(** * Tables *)
(** [struct Table], [enum TableInit] (tables.rs:24-41 of wasmparser); [None] is [RefNull]. *)
Record p_table_def := mkPTableDef { ptd_ty : table_ty Z; ptd_init : option (list Z) }.
(** [FromReader for Table] (tables.rs:43-66). *)
Definition read_table_def : R p_table_def :=
  let* b := peek in
  let* has_init := (if b =? 0x40 then let* _ := read_u8 in ret true else ret false) in
  let* _ := (if has_init then let* z := read_u8 in if negb (z =? 0) then fail_at "invalid table encoding" 1 else ret tt else ret tt) in
  let* ty := read_table in
  let* init := read_opt has_init read_const in
  ret (mkPTableDef ty init).
(** What [TableSection::table] and [table_with_init] are given, and write (tables.rs:50-66 of wasm-encoder). *)
Record e_table_def := mkTableDef { etd_ty : table_ty e_ref; etd_init : option e_const }.
Definition enc_table_def (t : e_table_def) : out :=
  match etd_init t with
  | None => enc_table (etd_ty t)
  | Some e => o_byte 0x40 +++ o_byte 0x00 +++ enc_table (etd_ty t) +++ enc_const e
  end.
(** [parse_table] (reencode.rs:1312-1327). *)
Definition c_table_def (ft : features) (t : p_table_def) : option e_table_def :=
  match c_table (ptd_ty t), ptd_init t with
  | Some ty, None => Some (mkTableDef ty None)
  | Some ty, Some e => option_map (fun e => mkTableDef ty (Some e)) (c_const ft e)
  | None, _ => None
  end.

(** * Globals *)
(** [struct Global] and its [FromReader] (globals.rs:19-37 of wasmparser). *)
Record p_global_def := mkPGlobalDef { pgd_ty : global_ty p_val; pgd_init : list Z }.
Definition read_global_def : R p_global_def :=
  let* ty := read_global in let* init := read_const in ret (mkPGlobalDef ty init).
(** [GlobalSection::global] (globals.rs:51-56 of wasm-encoder). *)
Record e_global_def := mkGlobalDef { egd_ty : global_ty e_val; egd_init : e_const }.
Definition enc_global_def (g : e_global_def) : out := enc_global (egd_ty g) +++ enc_const (egd_init g).
(** [parse_global] (reencode.rs:1399-1409). *)
Definition c_global_def (ft : features) (g : p_global_def) : option e_global_def :=
  match c_global (pgd_ty g), c_const ft (pgd_init g) with Some ty, Some e => Some (mkGlobalDef ty e) | _, _ => None end.

(** * Element segments *)
(** [enum ElementKind], [enum ElementItems], [struct Element] (elements.rs:24-56 of wasmparser), without
    the range. *)
Inductive p_elem_kind := PKPassive | PKActive (table : option Z) (offset : list Z) | PKDeclared.
Inductive p_elem_items := PIFuncs (items : list Z) | PIExprs (ty : Z) (items : list Z).
Record p_elem := mkPElem { pe_kind : p_elem_kind; pe_items : p_elem_items }.
Definition bit_set (flags m : Z) : bool := negb (Z.land flags m =? 0).
(** [RefType::FUNCREF] (types.rs:1116). *)
Definition FUNCREF : Z := match ref_new true (HAbstract false RefModel.Func) with Some r => r | None => 0 end.
(** [FromReader for Element] (elements.rs:61-153).  [SectionLimited::new] at the end reads again the count
    that [skip] just read. *)
Definition read_elem : R p_elem :=
  let* flags := read_var_u32 in
  if negb (Z.land flags (Z.lnot 7) =? 0) then fail_at "invalid flags byte in element segment" 1
  else
    let* kind := (if bit_set flags 1 then
                    (if bit_set flags 2 then ret PKDeclared else ret PKPassive)
                  else
                    let* t := read_opt (bit_set flags 2) read_var_u32 in
                    let* offset := read_const in
                    ret (PKActive t offset)) in
    let exprs := bit_set flags 4 in
    let* ty := (if bit_set flags 3 then
                  (if exprs then let* t := read_ref in ret (Some t)
                   else let* k := read_kind in
                        match k with KFunc => ret None | _ => fail_at "only the function external type is supported in elem segment" 1 end)
                else ret None) in
    let* items := skip_raw (let* n := read_var_u32 in
                            if exprs then
                              let* _ := read_n (Z.to_nat n) (fun r => skip_const_expr (List.length (r_rem r)) cs_new r) in ret tt
                            else let* _ := read_n (Z.to_nat n) read_var_u32 in ret tt) in
    ret (mkPElem kind (if exprs then PIExprs (match ty with Some t => t | None => FUNCREF end) items else PIFuncs items)).
(** [enum Elements], [enum ElementMode], [struct ElementSegment] (elements.rs:50-88 of wasm-encoder). *)
Inductive e_elems := EFuncs (l : list Z) | EExprs (ty : e_ref) (l : list e_const).
Inductive e_elem_mode := EPassive | EDeclared | EActive (table : option Z) (offset : e_const).
Record e_elem := mkElem { ee_mode : e_elem_mode; ee_items : e_elems }.
Definition E_FUNCREF : e_ref := mkERef true (EAbs false RefModel.Func).
Definition is_funcref (r : e_ref) : bool :=
  er_null r && match er_heap r with EAbs false RefModel.Func => true | _ => false end.
(** [ElementSection::segment] (elements.rs:107-165). *)
Definition enc_elem (e : e_elem) : out :=
  let expr_bit := match ee_items e with EExprs _ _ => 4 | EFuncs _ => 0 end in
  let '(header, encode_type) :=
    match ee_mode e with
    | EPassive => (encode_u32 (Z.lor 1 expr_bit), true)
    | EActive table offset =>
        match table, ee_items e with
        | None, EFuncs _ => (encode_u32 expr_bit +++ enc_const offset, false)
        | _, EExprs ty _ =>
            if is_funcref ty && negb (is_some table) then (encode_u32 expr_bit +++ enc_const offset, false)
            else (encode_u32 (Z.lor 2 expr_bit) +++ encode_u32 (match table with Some t => t | None => 0 end) +++ enc_const offset, true)
        | _, _ => (encode_u32 (Z.lor 2 expr_bit) +++ encode_u32 (match table with Some t => t | None => 0 end) +++ enc_const offset, true)
        end
    | EDeclared => (encode_u32 (Z.lor 3 expr_bit), true)
    end in
  header +++
  match ee_items e with
  | EFuncs fs => (if encode_type then o_byte 0x00 else o_nil) +++ o_vec encode_u32 fs
  | EExprs ty es => (if encode_type then enc_ref ty else o_nil) +++ encode_usize (zlen es) +++ o_all enc_const es
  end.
(** [element_items] (reencode.rs:1613-1633), [parse_element] (reencode.rs:1577-1611). *)
Definition c_elem_items (ft : features) (i : p_elem_items) : option e_elems :=
  match i with
  | PIFuncs b => match section_items read_var_u32 ft 0 b with Ok l => Some (EFuncs l) | Err _ => None end
  | PIExprs ty b =>
      match section_items read_const ft 0 b with
      | Ok l => match all_some (c_const ft) l, c_ref ty with Some es, Some ty => Some (EExprs ty es) | _, _ => None end
      | Err _ => None
      end
  end.
Definition c_elem (ft : features) (e : p_elem) : option e_elem :=
  match c_elem_items ft (pe_items e) with
  | None => None
  | Some items =>
      match pe_kind e with
      | PKPassive => Some (mkElem EPassive items)
      | PKDeclared => Some (mkElem EDeclared items)
      | PKActive table offset =>
          let t := match table, match table with Some t => t | None => 0 end with
                   | None, 0 => None
                   | _, n => Some n
                   end in
          option_map (fun o => mkElem (EActive t o) items) (c_const ft offset)
      end
  end.

(** * Data segments *)
(** [enum DataKind], [struct Data] (data.rs:19-42 of wasmparser), without the range. *)
Inductive p_data_kind := PDPassive | PDActive (memory : Z) (offset : list Z).
Record p_data := mkPData { pd_kind : p_data_kind; pd_data : list Z }.
(** [FromReader for Data] (data.rs:47-94). *)
Definition read_data : R p_data :=
  let* start := get_pos in
  let* flags := read_var_u32 in
  let* kind := (if flags =? 1 then ret PDPassive
                else if (flags =? 0) || (flags =? 2) then
                  let* m := (if flags =? 0 then ret 0 else read_var_u32) in
                  let* offset := read_const in
                  ret (PDActive m offset)
                else fail_pos "invalid flags byte in data segment" start) in
  let* data := read_reader in
  ret (mkPData kind (r_rem data)).
(** [enum DataSegmentMode], [struct DataSegment], [DataSection::segment] (data.rs:46-67, 86-118 of
    wasm-encoder). *)
Inductive e_data_mode := EDPassive | EDActive (memory : Z) (offset : e_const).
Record e_data := mkData { ed_mode : e_data_mode; ed_data : list Z }.
Definition enc_data (d : e_data) : out :=
  match ed_mode d with
  | EDPassive => o_byte 0x01
  | EDActive m offset => if m =? 0 then o_byte 0x00 +++ enc_const offset else o_byte 0x02 +++ encode_u32 m +++ enc_const offset
  end +++ encode_usize (zlen (ed_data d)) +++ Some (ed_data d).
(** [parse_data] (reencode.rs:1543-1560). *)
Definition c_data (ft : features) (d : p_data) : option e_data :=
  match pd_kind d with
  | PDPassive => Some (mkData EDPassive (pd_data d))
  | PDActive m offset => option_map (fun o => mkData (EDActive m o) (pd_data d)) (c_const ft offset)
  end.
