(** Validation of a whole core module, section by section: [ModuleState] and [Module] (crates/wasmparser/src/validator/core.rs, [core.rs]
    below), the methods of [Validator] for the sections of modules and [validate_all] (crates/wasmparser/src/validator.rs).

    Simplifications, valid for the whole area:
    - a section is the list of its items as the readers give them (Types/EntityModel.v, Sections/SegModel.v); that the readers are called
      one item at a time, so that an item that cannot be read is reported after the ones before it have been validated, only matters
      to which error is reported;
    - all errors are given one position, [pos], which also is the one expressions are read at: it serves messages, and one test that it is not zero;
    - the type section is the one of Types/CanonModel.v, where all proposals are enabled;
    - [imports] and [exports] of the module are what is asked of them: the names of the exports, and nothing of the imports, which are
      counted once, when there are none;
    - [validate_all] (validator.rs:495-532) is given the sections of the module; the order of sections and the agreement of the numbers of functions
      and bodies are tests of the parser (Parser/Model.v). *)
From Verif.Base Require Import Prelude.
From Verif.Reader Require Import Model.
From Verif.Types Require Import RefModel CodecModel EntityModel CanonModel.
From Verif.Instr Require Import ImmModel Ops BodyModel.
From Verif.Instr Require Visit.
From Verif.Sections Require Import SegModel.
From Verif.Validator Require Import State Checks Visit Api Body Module.

(** The switches of [WasmFeatures] that validating a module asks about besides those of function bodies (features.rs:170-259). *)
Inductive m_feature := g_mutable_global | g_memory64 | g_multi_memory | g_custom_page_sizes | g_extended_const.

(** * Types as the type section gives them *)
(** [UnpackedIndex::Module]; the reader makes no other. *)
Definition mod_index (u : uidx) : option Z := match u with UModule i => Some i | _ => None end.
Definition g_index (p : Z) : option Z := match unpack p with Some u => mod_index u | None => None end.
Definition g_opt (o : option Z) : option (option Z) :=
  match o with None => Some None | Some p => match g_index p with Some i => Some (Some i) | None => None end end.
Definition g_val (v : p_val) : option (vty Z) :=
  match of_val v with
  | Some (VRef (mkR n (HC u))) => match mod_index u with Some i => Some (VRef (mkR n (HC i))) | None => None end
  | Some (VRef (mkR n (HX u))) => match mod_index u with Some i => Some (VRef (mkR n (HX i))) | None => None end
  | Some (VRef (mkR n (HA s t))) => Some (VRef (mkR n (HA s t)))
  | Some VI32 => Some VI32 | Some VI64 => Some VI64 | Some VF32 => Some VF32 | Some VF64 => Some VF64 | Some VV128 => Some VV128
  | None => None
  end.
Definition g_field (f : p_field) : option (fty Z) :=
  match pf_elem f with
  | PI8 => Some (mkF SI8 (pf_mut f))
  | PI16 => Some (mkF SI16 (pf_mut f))
  | PVal v => match g_val v with Some v => Some (mkF (SVal v) (pf_mut f)) | None => None end
  end.
Definition g_inner (i : p_inner) : option (inner Z) :=
  match i with
  | PFunc pr n => match all_some g_val (pf_params pr n), all_some g_val (pf_results pr n) with Some ps, Some rs => Some (IFunc ps rs) | _, _ => None end
  | PArray f => match g_field f with Some f => Some (IArray f) | None => None end
  | PStruct fs => match all_some g_field fs with Some fs => Some (IStruct fs) | None => None end
  | PCont i => match g_index i with Some i => Some (ICont i) | None => None end
  end.
Definition g_sub (s : p_sub) : option (subty Z) :=
  let c := ps_comp s in
  match g_opt (ps_super s), g_inner (pc_inner c), g_opt (pc_descriptor c), g_opt (pc_describes c) with
  | Some sup, Some i, Some d, Some ds => Some (mkS (ps_final s) sup (mkC i (pc_shared c) d ds))
  | _, _, _, _ => None
  end.
Definition g_group (r : p_rec) : option (list (subty Z)) :=
  match r with PExplicit l => all_some g_sub l | PImplicit s => match g_sub s with Some s => Some [s] | None => None end end.

(** * The state of the validator of a module *)
(** [struct ModuleState] (core.rs:28-38) and what [struct Module] (463-486) has besides Validator/Module.v.  [ms_frozen]: the module is shared
    ([MaybeOwned::arc], core.rs:1253-1266), and can no longer be changed. *)
Record mstate := mkMs
  { ms_store : store; ms_mod : modul; ms_globals_imported : Z; ms_exports : list (list Z); ms_size : Z; ms_code : option Z; ms_frozen : bool }.
Definition with_store (st : mstate) s := mkMs s (ms_mod st) (ms_globals_imported st) (ms_exports st) (ms_size st) (ms_code st) (ms_frozen st).
Definition with_mod (st : mstate) m := mkMs (ms_store st) m (ms_globals_imported st) (ms_exports st) (ms_size st) (ms_code st) (ms_frozen st).
Definition with_imported (st : mstate) n := mkMs (ms_store st) (ms_mod st) n (ms_exports st) (ms_size st) (ms_code st) (ms_frozen st).
Definition with_exports (st : mstate) l := mkMs (ms_store st) (ms_mod st) (ms_globals_imported st) l (ms_size st) (ms_code st) (ms_frozen st).
Definition with_size (st : mstate) n := mkMs (ms_store st) (ms_mod st) (ms_globals_imported st) (ms_exports st) n (ms_code st) (ms_frozen st).
Definition with_code (st : mstate) c := mkMs (ms_store st) (ms_mod st) (ms_globals_imported st) (ms_exports st) (ms_size st) c true.
Definition set_types (m : modul) x := mkModul x (md_functions m) (md_tables m) (md_memories m) (md_globals m) (md_tags m) (md_elements m) (md_data_count m) (md_references m) (md_imported m) (md_exact_imports m).
Definition set_functions (m : modul) x := mkModul (md_types m) x (md_tables m) (md_memories m) (md_globals m) (md_tags m) (md_elements m) (md_data_count m) (md_references m) (md_imported m) (md_exact_imports m).
Definition set_tables (m : modul) x := mkModul (md_types m) (md_functions m) x (md_memories m) (md_globals m) (md_tags m) (md_elements m) (md_data_count m) (md_references m) (md_imported m) (md_exact_imports m).
Definition set_memories (m : modul) x := mkModul (md_types m) (md_functions m) (md_tables m) x (md_globals m) (md_tags m) (md_elements m) (md_data_count m) (md_references m) (md_imported m) (md_exact_imports m).
Definition set_globals (m : modul) x := mkModul (md_types m) (md_functions m) (md_tables m) (md_memories m) x (md_tags m) (md_elements m) (md_data_count m) (md_references m) (md_imported m) (md_exact_imports m).
Definition set_tags (m : modul) x := mkModul (md_types m) (md_functions m) (md_tables m) (md_memories m) (md_globals m) x (md_elements m) (md_data_count m) (md_references m) (md_imported m) (md_exact_imports m).
Definition set_elements (m : modul) x := mkModul (md_types m) (md_functions m) (md_tables m) (md_memories m) (md_globals m) (md_tags m) x (md_data_count m) (md_references m) (md_imported m) (md_exact_imports m).
Definition set_data_count (m : modul) x := mkModul (md_types m) (md_functions m) (md_tables m) (md_memories m) (md_globals m) (md_tags m) (md_elements m) x (md_references m) (md_imported m) (md_exact_imports m).
Definition set_references (m : modul) x := mkModul (md_types m) (md_functions m) (md_tables m) (md_memories m) (md_globals m) (md_tags m) (md_elements m) (md_data_count m) x (md_imported m) (md_exact_imports m).
Definition set_imported (m : modul) x y := mkModul (md_types m) (md_functions m) (md_tables m) (md_memories m) (md_globals m) (md_tags m) (md_elements m) (md_data_count m) (md_references m) x y.
Definition empty_modul : modul := mkModul [] [] [] [] [] [] [] None [] 0 [].
(** [ModuleState::new] (core.rs:40-46), [Module::new] (489-510); the types are those of the validator. *)
Definition new_mstate (s : store) : mstate := mkMs s empty_modul 0 [] 1 None false.

(** The sections of a module, in their order (parser.rs, see Parser/Model.v). *)
Inductive sec :=
| STypes (l : list p_rec) | SImports (l : list p_imports) | SFunctions (l : list Z) | STables (l : list p_table_def) | SMemories (l : list memory_ty)
| STags (l : list Z) | SGlobals (l : list p_global_def) | SExports (l : list p_export) | SStart (f : Z) | SElements (l : list p_elem)
| SDataCount (n : Z) | SCode (bodies : list (list Z)) | SData (l : list p_data).

(** Limits (limits.rs:20-66). *)
Definition MAX_TYPES : Z := 1000000.
Definition MAX_FUNCTIONS : Z := 1000000.
Definition MAX_IMPORTS : Z := 1000000.
Definition MAX_EXPORTS : Z := 1000000.
Definition MAX_GLOBALS : Z := 1000000.
Definition MAX_TAGS : Z := 1000000.
Definition MAX_ELEMENTS : Z := 100000.
Definition MAX_DATA : Z := 100000.
Definition MAX_TABLE_ENTRIES : Z := 10000000.
Definition MAX_FUNCTION_SIZE : Z := 7654321.
Definition MAX_TYPE_SIZE : Z := 1000000.

Definition of_canon {A} (x : CanonModel.outcome A) (e : error) : outcome A :=
  match x with CanonModel.Done a => Done a | CanonModel.Refused _ => Rejected e | _ => Panicked end.
Fixpoint each {A S} (f : S -> A -> outcome S) (s : S) (l : list A) : outcome S :=
  match l with [] => Done s | a :: l => obind (f s a) (fun s => each f s l) end.

Section Validator.
Variable F : feature -> bool.
Variable G : m_feature -> bool.
Variable ft : features.
Variable pos : Z.
Definition fail {A} (msg : string) : outcome A := Rejected (err_new msg pos).
Definition check (b : bool) (msg : string) : outcome unit := if b then Done tt else fail msg.
Definition need (f : feature) (msg : string) : outcome unit := check (F f) msg.
Definition needm (g : m_feature) (msg : string) : outcome unit := check (G g) msg.
Definition canon {A} (x : CanonModel.outcome A) : outcome A := of_canon x (err_new "refused" pos).
(** [check_max] (validator.rs:70-84), [combine_type_sizes] (86-94). *)
Definition check_max (cur added max : Z) (desc : string) : outcome unit := check ((cur <=? max) && (added <=? max - cur)) desc.
Definition combine (a b : Z) : outcome Z := if a + b <? MAX_TYPE_SIZE then Done (a + b) else fail "effective type size exceeds the limit".
(** [MaybeOwned::assert_mut] (core.rs:1268-1274). *)
Definition assert_mut (st : mstate) : outcome unit := if ms_frozen st then Panicked else Done tt.

(** * Types of entities *)
Section Types.
Variable s : store.
Variable m : modul.
(** [type_id_at] (core.rs:1016-1021), [sub_type_at], [func_type_at] (629-647); a type id out of range is a panic of the store. *)
Definition id_at (i : Z) : outcome Z := match nthz (md_types m) i with Some id => Done id | None => fail "unknown type: type index out of bounds" end.
Definition func_type (i : Z) : outcome (list (vty Z) * list (vty Z)) :=
  obind (id_at i) (fun id =>
  match nthz (st_types s) id with
  | None => Panicked
  | Some t => match c_inner (s_comp t) with IFunc ps rs => Done (ps, rs) | _ => fail "type index is not a function type" end
  end).
(** [get_func_type] (core.rs:964-977). *)
Definition get_func_type (i : Z) : outcome (list (vty Z) * list (vty Z)) :=
  match nthz (md_functions m) i with Some t => func_type t | None => fail "unknown function: func index out of bounds" end.
(** [check_value_type], [check_ref_type], [check_heap_type] (core.rs:819-857).  They are those of the resources (Validator/Checks.v), as both come down
    to [features.check_value_type] and [type_id_at]; the state of a function validator is not used. *)
Definition ask {A} (x : V A) : outcome A := match x (new_const_expr VI32) with VOk a _ => Done a | VErr e _ => Rejected e | VPanic => Panicked end.
Definition here : env := mkEnv (module_resources s m) F pos.
Definition check_ref (r : rf) : outcome rf := ask (feature_check_ref_type here r ;; check_ref_type here r).
Definition check_value (v : val) : outcome val := ask (check_value_type here v).
(** [check_limits] (core.rs:886-899). *)
Definition check_limits (min : Z) (max : option Z) : outcome unit :=
  match max with Some max => check (min <=? max) "size minimum must not be greater than maximum" | None => Done tt end.
Definition at_most (min : Z) (max : option Z) (top : Z) (msg : string) : outcome unit :=
  obind (check (min <=? top) msg) (fun _ => match max with Some max => check (max <=? top) msg | None => Done tt end).
(** [check_table_type] (core.rs:688-736). *)
Definition check_table (t : table_ty Z) : outcome tblty :=
  match of_ref (t_elem t) with
  | None => Panicked
  | Some r =>
    obind (if rty_dec uidx_dec r (abs true false Func) then Done r else check_ref r) (fun r =>
    obind (check_limits (t_min t) (t_max t)) (fun _ =>
    obind (if t_64 t then needm g_memory64 "memory64 must be enabled for 64-bit tables" else Done tt) (fun _ =>
    obind (if t_shared t then need f_shared_everything_threads "shared tables require the shared-everything-threads proposal" else Done tt) (fun _ =>
    obind (at_most (t_min t) (t_max t) (if t_64 t then 2 ^ 64 - 1 else 2 ^ 32 - 1) "table size") (fun _ =>
    obind (if t_shared t then obind (canon (rf_is_shared s r)) (fun b => check b "shared tables must have a shared element type") else Done tt) (fun _ =>
    Done (mkTbl r (t_64 t) (t_shared t))))))))
  end.
(** [check_memory_type] (core.rs:738-796), [max_wasm_memory32_pages], [max_wasm_memory64_pages] (limits.rs:44-57). *)
Definition pages32 (page : Z) : Z := Z.min (2 ^ 32 / page) (2 ^ 32 - 1).
Definition pages64 (page : Z) : Z := Z.min (2 ^ 64 / page) (2 ^ 64 - 1).
Definition check_memory (t : memory_ty) : outcome bool :=
  obind (check_limits (m_min t) (m_max t)) (fun _ =>
  obind (if m_64 t then needm g_memory64 "memory64 must be enabled for 64-bit memories" else Done tt) (fun _ =>
  obind (if m_shared t then need f_threads "threads must be enabled for shared memories" else Done tt) (fun _ =>
  obind (match m_page t with
         | Some p =>
           obind (needm g_custom_page_sizes "the custom page sizes proposal must be enabled to customize a memory's page size") (fun _ =>
           obind (check ((p =? 0) || (p =? 16)) "invalid custom page size") (fun _ => Done (2 ^ p)))
         | None => Done 65536
         end) (fun page =>
  obind (at_most (m_min t) (m_max t) (if m_64 t then pages64 page else pages32 page) "memory size") (fun _ =>
  obind (if m_shared t then check (match m_max t with Some _ => true | None => false end) "shared memory must have maximum size" else Done tt) (fun _ =>
  Done (m_64 t))))))).
(** [check_tag_type] (core.rs:859-870). *)
Definition check_tag (i : Z) : outcome unit :=
  obind (need f_exceptions "exceptions proposal not enabled") (fun _ =>
  obind (func_type i) (fun '(_, rs) =>
  match rs with [] => Done tt | _ => need f_stack_switching "invalid exception type: non-empty tag result type" end)).
(** [check_global_type] (core.rs:872-884), [valtype_is_shared] (validator/types.rs:1245-1253). *)
Definition val_is_shared (v : val) : CanonModel.outcome bool := match v with VRef r => rf_is_shared s r | _ => CanonModel.Done true end.
Definition check_global (t : global_ty p_val) : outcome glbty :=
  match of_val (EntityModel.g_val t) with
  | None => Panicked
  | Some v =>
    obind (check_value v) (fun v =>
    obind (if g_shared t then need f_shared_everything_threads "shared globals require the shared-everything-threads proposal" else Done tt) (fun _ =>
    obind (if g_shared t then obind (canon (val_is_shared v)) (fun b => check b "shared globals must have a shared value type") else Done tt) (fun _ =>
    Done (mkGlb v (g_mut t) (g_shared t)))))
  end.
(** [EntityType::info] (validator/types.rs:617-628), [TypeInfo] (140-180): the size of a function is two more than the number of its types. *)
Definition func_size (ty : list (vty Z) * list (vty Z)) : Z := 2 + zlen (fst ty) + zlen (snd ty).
(** [self.types[i]]. *)
Definition must {A} (o : option A) : outcome A := match o with Some a => Done a | None => Panicked end.
(** [max_tables], [max_memories] (core.rs:901-915). *)
Definition max_tables : Z := if F f_reference_types then 100 else 1.
Definition max_memories : Z := if G g_multi_memory then 100 else 1.
End Types.

(** * Constant expressions *)
(** [VisitConstOperator::validate_global] (core.rs:233-251). *)
Definition const_global (st : mstate) (i : Z) : outcome unit :=
  match nthz (md_globals (ms_mod st)) i with
  | None => fail "unknown global: global index out of bounds"
  | Some g =>
    obind (if ms_globals_imported st <=? i then need f_gc "constant expression required: global.get of locally defined global" else Done tt) (fun _ =>
    check (negb (gl_mut g)) "constant expression required: global.get of mutable global")
  end.
Definition add_reference (st : mstate) (i : Z) : mstate := with_mod st (set_references (ms_mod st) (md_references (ms_mod st) ++ [i])).
(** [insert_ref_func] (core.rs:271-281). *)
Definition insert_ref (i : Z) (x : mstate * bool) : mstate * bool :=
  if ms_frozen (fst x) then (fst x, true) else (add_reference (fst x) i, snd x).
(** The visitor (core.rs:291-430): what is asked of an operator before the visitor of function bodies sees it. *)
Definition const_before (o : operator) (x : mstate * bool) : outcome (mstate * bool) :=
  match o with
  | Op_I32Const _ | Op_I64Const _ | Op_F32Const _ | Op_F64Const _ | Op_V128Const _ | Op_RefNull _ | Op_End => Done x
  | Op_I32Add | Op_I32Sub | Op_I32Mul | Op_I64Add | Op_I64Sub | Op_I64Mul =>
    obind (needm g_extended_const "constant expression required: non-constant operator") (fun _ => Done x)
  | Op_StructNew _ | Op_StructNewDefault _ | Op_StructNewDesc _ | Op_StructNewDefaultDesc _ | Op_ArrayNew _ | Op_ArrayNewDefault _
  | Op_ArrayNewFixed _ _ | Op_RefI31 | Op_ExternConvertAny | Op_AnyConvertExtern =>
    obind (need f_gc "constant expression required: non-constant operator") (fun _ => Done x)
  | Op_RefI31Shared => obind (need f_shared_everything_threads "constant expression required: non-constant operator") (fun _ => Done x)
  | Op_GlobalGet i => obind (const_global (fst x) i) (fun _ => Done x)
  | Op_RefFunc i => Done (insert_ref i x)
  | _ => fail "constant expression required: non-constant operator"
  end.
(** [check_const_expr] (core.rs:184-215); [fuel] as in Validator/Body.v. *)
Fixpoint const_loop (fuel : nat) (r : reader) (s : vst) (x : mstate * bool) : outcome (mstate * bool) :=
  if eof r then Done x
  else match fuel with
       | O => Rejected (err_new "out of fuel" 0)
       | S n =>
         obind (of_read (Verif.Instr.Visit.visit_operator (current_frame s) r)) (fun '(o, r') =>
         obind (const_before o x) (fun x =>
         obind (of_visit (op (mkEnv (module_resources (ms_store (fst x)) (ms_mod (fst x))) F (original_position r)) o s)) (fun s =>
         const_loop n r' s x)))
       end.
Definition check_const (st : mstate) (bytes : list Z) (t : val) : outcome mstate :=
  obind (const_loop (List.length bytes) (new_reader ft bytes pos) (new_const_expr t) (st, false)) (fun '(st, missed) =>
  if missed then Panicked else Done st).

(** * Items of sections *)
(** [add_types] (core.rs:512-527) with [canonicalize_and_intern_rec_group] (Types/CanonModel.v). *)
Definition add_types (st : mstate) (r : p_rec) : outcome mstate :=
  obind (assert_mut st) (fun _ =>
  obind (must (g_group r)) (fun g =>
  obind (canon (add_group (ms_store st) (md_types (ms_mod st)) g)) (fun '(s, ids) =>
  Done (with_mod (with_store st s) (set_types (ms_mod st) ids))))).
(** [add_import] (core.rs:529-587) with [check_type_ref] (649-686). *)
Definition add_import (st : mstate) (e : p_entity) : outcome mstate :=
  let s := ms_store st in
  let m := ms_mod st in
  let sized (size len max : Z) (st : mstate) :=
    obind (check_max len 0 max "count exceeds limit") (fun _ => obind (combine (ms_size st) size) (fun n => Done (with_size st n))) in
  match e with
  | NFunc i =>
    obind (func_type s m i) (fun ty =>
    sized (func_size ty) (zlen (md_functions m) + 1) MAX_FUNCTIONS
      (with_mod st (set_imported (set_functions m (md_functions m ++ [i])) (md_imported m + 1) (md_exact_imports m))))
  | NFuncExact i =>
    obind (func_type s m i) (fun ty =>
    sized (func_size ty) (zlen (md_functions m) + 1) MAX_FUNCTIONS
      (with_mod st (set_imported (set_functions m (md_functions m ++ [i])) (md_imported m + 1) (md_exact_imports m ++ [md_imported m]))))
  | NTable t =>
    obind (check_table s m t) (fun t => sized 1 (zlen (md_tables m) + 1) max_tables (with_mod st (set_tables m (md_tables m ++ [t]))))
  | NMemory t =>
    obind (check_memory t) (fun t => sized 1 (zlen (md_memories m) + 1) max_memories (with_mod st (set_memories m (md_memories m ++ [t]))))
  | NTag i =>
    obind (check_tag s m i) (fun _ =>
    obind (must (nthz (md_types m) i)) (fun id =>
    obind (func_type s m i) (fun ty =>
    sized (func_size ty) (zlen (md_tags m) + 1) MAX_TAGS (with_mod st (set_tags m (md_tags m ++ [id]))))))
  | NGlobal t =>
    obind (check_global s m t) (fun g =>
    obind (if g_mut t then needm g_mutable_global "mutable global support is not enabled" else Done tt) (fun _ =>
    sized 1 (zlen (md_globals m) + 1) MAX_GLOBALS (with_imported (with_mod st (set_globals m (md_globals m ++ [g]))) (ms_globals_imported st + 1))))
  end.
(** The imports of a group one by one (validator.rs:718-725). *)
Definition add_imports (st : mstate) (i : p_imports) : outcome mstate :=
  obind (assert_mut st) (fun _ =>
  obind (of_read (flatten_imports ft pos i)) (fun l => each (fun st x => add_import st (snd x)) st l)).
(** [add_function], [add_memory], [add_tag] (core.rs:624-640 of [impl Module]). *)
Definition add_function (st : mstate) (i : Z) : outcome mstate :=
  obind (assert_mut st) (fun _ => obind (func_type (ms_store st) (ms_mod st) i) (fun _ =>
  Done (with_mod st (set_functions (ms_mod st) (md_functions (ms_mod st) ++ [i]))))).
Definition add_memory (st : mstate) (t : memory_ty) : outcome mstate :=
  obind (assert_mut st) (fun _ => obind (check_memory t) (fun t => Done (with_mod st (set_memories (ms_mod st) (md_memories (ms_mod st) ++ [t]))))).
Definition add_tag (st : mstate) (i : Z) : outcome mstate :=
  obind (assert_mut st) (fun _ => obind (check_tag (ms_store st) (ms_mod st) i) (fun _ => obind (must (nthz (md_types (ms_mod st)) i)) (fun id =>
  Done (with_mod st (set_tags (ms_mod st) (md_tags (ms_mod st) ++ [id])))))).
(** [add_table] (core.rs:69-91). *)
Definition add_table (st : mstate) (d : p_table_def) : outcome mstate :=
  obind (check_table (ms_store st) (ms_mod st) (ptd_ty d)) (fun t =>
  obind (match ptd_init d with
         | None => obind (check (rt_null (tb_elem t)) "type mismatch: non-defaultable element type") (fun _ => Done st)
         | Some e =>
           obind (need f_function_references "tables with expression initializers require the function-references proposal") (fun _ =>
           check_const st e (VRef (tb_elem t)))
         end) (fun st =>
  obind (assert_mut st) (fun _ => Done (with_mod st (set_tables (ms_mod st) (md_tables (ms_mod st) ++ [t])))))).
(** [add_global] (core.rs:61-67). *)
Definition add_global (st : mstate) (d : p_global_def) : outcome mstate :=
  obind (check_global (ms_store st) (ms_mod st) (pgd_ty d)) (fun g =>
  obind (check_const st (pgd_init d) (gl_ty g)) (fun st =>
  obind (assert_mut st) (fun _ => Done (with_mod st (set_globals (ms_mod st) (md_globals (ms_mod st) ++ [g])))))).
(** [export_to_entity_type] (core.rs:917-962) and the size of the entity. *)
Definition in_bounds {A} (i : Z) (l : list A) : outcome A := match nthz l i with Some a => Done a | None => fail "exported index out of bounds" end.
Definition export_entity (st : mstate) (k : external_kind) (i : Z) : outcome (mstate * Z * bool) :=
  let m := ms_mod st in
  match k with
  | KFunc | KFuncExact =>
    obind (in_bounds i (md_functions m)) (fun t =>
    obind (must (nthz (md_types m) t)) (fun id =>
    obind (must (nthz (st_types (ms_store st)) id)) (fun ty =>
    match c_inner (s_comp ty) with IFunc ps rs => Done (add_reference st i, func_size (ps, rs), false) | _ => Panicked end)))
  | KTable => obind (in_bounds i (md_tables m)) (fun _ => Done (st, 1, false))
  | KMemory => obind (in_bounds i (md_memories m)) (fun _ => Done (st, 1, false))
  | KGlobal => obind (in_bounds i (md_globals m)) (fun g => Done (st, 1, gl_mut g))
  | KTag =>
    obind (in_bounds i (md_tags m)) (fun id =>
    obind (must (nthz (st_types (ms_store st)) id)) (fun ty =>
    match c_inner (s_comp ty) with IFunc ps rs => Done (st, func_size (ps, rs), false) | _ => Panicked end))
  end.
(** [add_export] (core.rs:589-622). *)
Definition name_eqb (a b : list Z) : bool := if list_eq_dec Z.eq_dec a b then true else false.
Definition add_export (st : mstate) (x : p_export) : outcome mstate :=
  obind (assert_mut st) (fun _ =>
  obind (export_entity st (px_kind x) (px_index x)) (fun '(st, size, mutable) =>
  obind (if mutable : bool then needm g_mutable_global "mutable global support is not enabled" else Done tt) (fun _ =>
  obind (combine (ms_size st) size) (fun n =>
  if existsb (name_eqb (px_name x)) (ms_exports st) then fail "duplicate export name already defined"
  else Done (with_exports (with_size st n) (ms_exports st ++ [px_name x])))))).
(** [start_section] (validator.rs:893-906). *)
Definition start (st : mstate) (f : Z) : outcome mstate :=
  obind (get_func_type (ms_store st) (ms_mod st) f) (fun '(ps, rs) =>
  match ps, rs with [], [] => Done st | _, _ => fail "invalid start function type" end).
(** [add_element_segment] (core.rs:114-172).  The items are read once more from their bytes. *)
Definition table_at (m : modul) (i : Z) : outcome tblty := match nthz (md_tables m) i with Some t => Done t | None => fail "unknown table: table index out of bounds" end.
Definition elem_func (st : mstate) (f : Z) : outcome mstate :=
  obind (get_func_type (ms_store st) (ms_mod st) f) (fun _ => obind (assert_mut st) (fun _ => Done (add_reference st f))).
Definition add_element (st : mstate) (e : p_elem) : outcome mstate :=
  let s := ms_store st in
  let m := ms_mod st in
  obind (match pe_items e with
         | PIFuncs _ => Done (abs false false Func)
         | PIExprs ty _ => match of_ref ty with None => Panicked | Some r => check_ref s m r end
         end) (fun ty =>
  obind (match pe_kind e with
         | PKActive i offset =>
           obind (table_at m (match i with Some i => i | None => 0 end)) (fun t =>
           obind (canon (rf_is_subtype s ty (tb_elem t))) (fun b =>
           obind (check b "type mismatch: invalid element type for table type") (fun _ =>
           check_const st offset (index_type (tb_64 t)))))
         | PKPassive | PKDeclared => obind (need f_bulk_memory "bulk memory must be enabled") (fun _ => Done st)
         end) (fun st =>
  obind (match pe_items e with
         | PIFuncs items =>
           obind (of_read (section_items read_var_u32 ft pos items)) (fun l =>
           obind (check (zlen l <=? MAX_TABLE_ENTRIES) "number of elements is out of bounds") (fun _ => each elem_func st l))
         | PIExprs _ items =>
           obind (of_read (section_items read_const ft pos items)) (fun l =>
           obind (check (zlen l <=? MAX_TABLE_ENTRIES) "number of elements is out of bounds") (fun _ => each (fun st b => check_const st b (VRef ty)) st l))
         end) (fun st =>
  obind (assert_mut st) (fun _ => Done (with_mod st (set_elements (ms_mod st) (md_elements (ms_mod st) ++ [ty]))))))).
(** [add_data_segment] (core.rs:93-112). *)
Definition add_data (st : mstate) (d : p_data) : outcome mstate :=
  match pd_kind d with
  | PDPassive => obind (need f_bulk_memory "passive data segments require the bulk-memory proposal") (fun _ => Done st)
  | PDActive i offset =>
    match nthz (md_memories (ms_mod st)) i with
    | None => fail "unknown memory: memory index out of bounds"
    | Some is64 => check_const st offset (index_type is64)
    end
  end.
(** [code_section_entry] (validator.rs:1000-1024), [next_code_index_and_type] (core.rs:48-59).  The module is shared from now on. *)
Definition code_entry (st : mstate) (body : list Z) : outcome (mstate * Z) :=
  obind (check_max 0 (zlen body) MAX_FUNCTION_SIZE "function body size") (fun _ =>
  let i := match ms_code st with Some i => i | None => md_imported (ms_mod st) end in
  obind (must (nthz (md_functions (ms_mod st)) i)) (fun ty =>
  Done (with_code st (Some (i + 1)), ty))).
Fixpoint code_entries (st : mstate) (l : list (list Z)) : outcome (mstate * list (Z * list Z)) :=
  match l with
  | [] => Done (st, [])
  | b :: l => obind (code_entry st b) (fun '(st, ty) => obind (code_entries st l) (fun '(st, fs) => Done (st, (ty, b) :: fs)))
  end.

(** * Sections *)
(** [type_section] .. [data_section] (validator.rs:711-1037), [process_module_section] (1388-1411).  The functions of the code section are kept for
    later, as [validate_all] does. *)
Definition counted {A} (st : mstate) (len max : Z) (f : mstate -> A -> outcome mstate) (l : list A) : outcome mstate :=
  obind (check_max len (zlen l) max "count exceeds limit") (fun _ => obind (assert_mut st) (fun _ => each f st l)).
Definition section (x : mstate * list (Z * list Z)) (d : sec) : outcome (mstate * list (Z * list Z)) :=
  let st := fst x in
  let m := ms_mod st in
  let keep (o : outcome mstate) := obind o (fun st => Done (st, snd x)) in
  match d with
  | STypes l => keep (counted st (zlen (md_types m)) MAX_TYPES add_types l)
  | SImports l => keep (counted st 0 MAX_IMPORTS add_imports l)
  | SFunctions l => keep (counted st (zlen (md_functions m)) MAX_FUNCTIONS add_function l)
  | STables l => keep (counted st (zlen (md_tables m)) max_tables add_table l)
  | SMemories l => keep (counted st (zlen (md_memories m)) max_memories add_memory l)
  | STags l => obind (need f_exceptions "exceptions proposal not enabled") (fun _ => keep (counted st (zlen (md_tags m)) MAX_TAGS add_tag l))
  | SGlobals l => keep (counted st (zlen (md_globals m)) MAX_GLOBALS add_global l)
  | SExports l => keep (counted st (zlen (ms_exports st)) MAX_EXPORTS add_export l)
  | SStart f => keep (start st f)
  | SElements l => keep (counted st (zlen (md_elements m)) MAX_ELEMENTS add_element l)
  | SDataCount n =>
    keep (obind (check (n <=? MAX_DATA) "data count section specifies too many data segments") (fun _ =>
          obind (assert_mut st) (fun _ => Done (with_mod st (set_data_count m (Some n))))))
  | SCode l => obind (assert_mut st) (fun _ => obind (code_entries st l) (fun '(st, fs) => Done (st, snd x ++ fs)))
  (* [data_section] (validator.rs:1026-1037) counts the segments against the limit, and changes nothing of the module. *)
  | SData l => keep (obind (check_max 0 (zlen l) MAX_DATA "data segments") (fun _ => each add_data st l))
  end.
(** [FuncToValidate::into_validator] (func.rs:39-53) and [FuncValidator::validate]: that the type of the function is one of functions is an [unwrap]. *)
Definition body (st : mstate) (f : Z * list Z) : outcome unit :=
  let R := module_resources (ms_store st) (ms_mod st) in
  match new_func (mkEnv R F 0) (fst f) with
  | Err _ => Panicked
  | Ok _ => validate R F ft 0 (fst f) pos (snd f)
  end.
(** [validate_all] (validator.rs:495-532). *)
Definition validate_module (s : store) (l : list sec) : outcome unit :=
  obind (each section (new_mstate s, []) l) (fun '(st, fs) => each (fun _ f => body st f) tt fs).
End Validator.
