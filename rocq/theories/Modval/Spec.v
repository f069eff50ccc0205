(** When a module is valid, in the terms of the specification of WebAssembly (validation of modules), given the typing rules of
    instructions (Validator/TypeSpec.v) and the types of the store (Types/CanonSpec.v). *)
From Verif.Base Require Import Prelude.
From Verif.Reader Require Import Model.
From Verif.Types Require Import RefModel CodecModel EntityModel CanonModel CanonSpec.
From Verif.Instr Require Import ImmModel Ops BodyModel.
From Verif.Sections Require Import SegModel.
From Verif.Validator Require Import State Module TypeSpec.
From Verif.Modval Require Import Model.

(** * What is in a module *)
(** Expressions and bodies are the operators they consist of, with the final [end]. *)
Notation expr := (list operator) (only parsing).
Record table_def := mkTd { td_ty : table_ty Z; td_init : option expr }.
Record global_def := mkGd { gd_ty : global_ty p_val; gd_init : expr }.
Inductive elem_kind := KdPassive | KdDeclared | KdActive (table : Z) (offset : expr).
Inductive elem_items := ItFuncs (l : list Z) | ItExprs (ty : Z) (l : list expr).
Record elem_def := mkEd { ed_kind : elem_kind; ed_items : elem_items }.
Record body_def := mkBd { bd_size : Z; bd_locals : list (Z * p_val); bd_ops : expr }.
(** Imports come in groups; a data segment is [None] when it is passive, and a memory and an offset when it is not. *)
Record contents := mkCt
  { ct_types : list (list (subty Z)); ct_imports : list (list p_entity); ct_functions : list Z; ct_tables : list table_def;
    ct_memories : list memory_ty; ct_tags : list Z; ct_globals : list global_def; ct_exports : list p_export; ct_start : option Z;
    ct_elements : list elem_def; ct_data_count : option Z; ct_code : list body_def; ct_data : list (option (Z * expr)) }.
Definition no_contents : contents := mkCt [] [] [] [] [] [] [] [] None [] None [] [].

(** What the sections of a module contain, as far as it can be read. *)
Section Reading.
Variable ft : features.
Variable pos : Z.
Notation "'let?' x := e 'in' k" := (match e with Some x => k | None => None end) (at level 200, x pattern, e at level 100, k at level 200).
Definition opt_of {A} (r : res A) : option A := match r with Ok a => Some a | Err _ => None end.
Definition d_expr (b : list Z) : option expr := match read_expr (new_reader ft b pos) with Ok (ops, _) => Some ops | Err _ => None end.
Definition d_table (d : p_table_def) : option table_def :=
  match ptd_init d with None => Some (mkTd (ptd_ty d) None) | Some e => let? e := d_expr e in Some (mkTd (ptd_ty d) (Some e)) end.
Definition d_global (d : p_global_def) : option global_def := let? e := d_expr (pgd_init d) in Some (mkGd (pgd_ty d) e).
Definition d_elem (e : p_elem) : option elem_def :=
  let? k := match pe_kind e with
            | PKPassive => Some KdPassive
            | PKDeclared => Some KdDeclared
            | PKActive t o => let? o := d_expr o in Some (KdActive (match t with Some t => t | None => 0 end) o)
            end in
  let? i := match pe_items e with
            | PIFuncs b => let? l := opt_of (section_items read_var_u32 ft pos b) in Some (ItFuncs l)
            | PIExprs ty b => let? l := opt_of (section_items read_const ft pos b) in let? l := all_some d_expr l in Some (ItExprs ty l)
            end in
  Some (mkEd k i).
Definition d_data (d : p_data) : option (option (Z * expr)) :=
  match pd_kind d with PDPassive => Some None | PDActive m o => let? o := d_expr o in Some (Some (m, o)) end.
Definition d_body (b : list Z) : option body_def :=
  let? l := opt_of (body_locals ft pos b) in let? ops := opt_of (body_ops ft pos b) in Some (mkBd (zlen b) l ops).
Definition d_imports (i : p_imports) : option (list p_entity) := let? l := opt_of (flatten_imports ft pos i) in Some (map snd l).
(** The sections in the order of modules, each at most once. *)
Definition rank (d : sec) : Z :=
  match d with
  | STypes _ => 1 | SImports _ => 2 | SFunctions _ => 3 | STables _ => 4 | SMemories _ => 5 | STags _ => 6 | SGlobals _ => 7 | SExports _ => 8 | SStart _ => 9
  | SElements _ => 10 | SDataCount _ => 11 | SCode _ => 12 | SData _ => 13
  end.
Fixpoint in_order (last : Z) (l : list sec) : Prop := match l with [] => True | d :: l => last < rank d /\ in_order (rank d) l end.
Definition d_section (c : contents) (d : sec) : option contents :=
  let '(mkCt ty im fn tb me tg gl ex st el dc co da) := c in
  match d with
  | STypes l => let? l := all_some g_group l in Some (mkCt l im fn tb me tg gl ex st el dc co da)
  | SImports l => let? l := all_some d_imports l in Some (mkCt ty l fn tb me tg gl ex st el dc co da)
  | SFunctions l => Some (mkCt ty im l tb me tg gl ex st el dc co da)
  | STables l => let? l := all_some d_table l in Some (mkCt ty im fn l me tg gl ex st el dc co da)
  | SMemories l => Some (mkCt ty im fn tb l tg gl ex st el dc co da)
  | STags l => Some (mkCt ty im fn tb me l gl ex st el dc co da)
  | SGlobals l => let? l := all_some d_global l in Some (mkCt ty im fn tb me tg l ex st el dc co da)
  | SExports l => Some (mkCt ty im fn tb me tg gl l st el dc co da)
  | SStart f => Some (mkCt ty im fn tb me tg gl ex (Some f) el dc co da)
  | SElements l => let? l := all_some d_elem l in Some (mkCt ty im fn tb me tg gl ex st l dc co da)
  | SDataCount n => Some (mkCt ty im fn tb me tg gl ex st el (Some n) co da)
  | SCode l => let? l := all_some d_body l in Some (mkCt ty im fn tb me tg gl ex st el dc l da)
  | SData l => let? l := all_some d_data l in Some (mkCt ty im fn tb me tg gl ex st el dc co l)
  end.
Fixpoint d_sections (c : contents) (l : list sec) : option contents :=
  match l with [] => Some c | d :: l => let? c := d_section c d in d_sections c l end.
Definition contents_of (l : list sec) : option contents := d_sections no_contents l.
End Reading.

(** * The index spaces *)
Section Spaces.
Variable c : contents.
Definition imports : list p_entity := List.concat (ct_imports c).
Definition functions : list Z := flat_map (fun e => match e with NFunc i | NFuncExact i => [i] | _ => [] end) imports ++ ct_functions c.
Definition imported_functions : Z := zlen functions - zlen (ct_functions c).
(** The imported functions whose type is exactly the declared one. *)
Fixpoint exact_from (n : Z) (l : list p_entity) : list Z :=
  match l with
  | [] => []
  | NFunc _ :: l => exact_from (n + 1) l
  | NFuncExact _ :: l => n :: exact_from (n + 1) l
  | _ :: l => exact_from n l
  end.
Definition table_types : list (table_ty Z) := flat_map (fun e => match e with NTable t => [t] | _ => [] end) imports ++ map td_ty (ct_tables c).
Definition memory_types : list memory_ty := flat_map (fun e => match e with NMemory t => [t] | _ => [] end) imports ++ ct_memories c.
Definition tag_types : list Z := flat_map (fun e => match e with NTag i => [i] | _ => [] end) imports ++ ct_tags c.
Definition global_types : list (global_ty p_val) := flat_map (fun e => match e with NGlobal t => [t] | _ => [] end) imports ++ map gd_ty (ct_globals c).
Definition imported_globals : nat := List.length global_types - List.length (ct_globals c).
(** The functions a body may take a reference of: those that occur outside of bodies. *)
Definition expr_refs (e : expr) : list Z := flat_map (fun o => match o with Op_RefFunc i => [i] | _ => [] end) e.
Definition table_refs (d : table_def) : list Z := match td_init d with Some e => expr_refs e | None => [] end.
Definition export_refs (x : p_export) : list Z := match px_kind x with KFunc | KFuncExact => [px_index x] | _ => [] end.
Definition elem_refs (e : elem_def) : list Z :=
  match ed_kind e with KdActive _ o => expr_refs o | _ => [] end ++
  match ed_items e with ItFuncs l => l | ItExprs _ l => flat_map expr_refs l end.
Definition references : list Z :=
  flat_map table_refs (ct_tables c) ++ flat_map (fun g => expr_refs (gd_init g)) (ct_globals c) ++ flat_map export_refs (ct_exports c) ++
  flat_map elem_refs (ct_elements c).
End Spaces.

(** * Validity *)
Section Validity.
(** [exact]: the custom descriptors proposal, which gives some operators more precise types. *)
Variable exact : bool.
(** The types of the module, by the ids of its types in a store (Types/CanonModel.v), and the module as far as its types go. *)
Variable s : store.
Variable ids : list Z.
Definition T : resources := module_resources s (mkModul ids [] [] [] [] [] [] None [] 0 []).
Definition CT : ctx := mkCtx T exact false [] [] [].
Definition func_at (i : Z) : option (list val * list val) :=
  match r_sub_type_at T i with Some t => match c_inner (s_comp t) with IFunc ps rs => Some (ps, rs) | _ => None end | None => None end.
Definition limits_ok (min : Z) (max : option Z) (top : Z) : Prop :=
  min <= top /\ match max with Some max => min <= max <= top | None => True end.
Definition val_shared (v : val) : bool := match v with VRef r => r_is_shared T r | _ => true end.
(** A table, a global: well formed, and these are their types with references resolved. *)
Definition table_ok (t : table_ty Z) (x : tblty) : Prop :=
  exists r, value CT (PRef (t_elem t)) = Some (VRef r) /\ x = mkTbl r (t_64 t) (t_shared t) /\
    limits_ok (t_min t) (t_max t) (if t_64 t then 2 ^ 64 - 1 else 2 ^ 32 - 1) /\ (t_shared t = true -> r_is_shared T r = true).
Definition global_ok (g : global_ty p_val) (x : glbty) : Prop :=
  exists v, value CT (EntityModel.g_val g) = Some v /\ x = mkGlb v (g_mut g) (g_shared g) /\ (g_shared g = true -> val_shared v = true).
(** A memory has at most the whole address space, counted in pages of one byte or of 64 KiB, as far as the number of pages is a [u32] or [u64]. *)
Definition memory_ok (m : memory_ty) : Prop :=
  (m_page m = None \/ m_page m = Some 0 \/ m_page m = Some 16) /\
  limits_ok (m_min m) (m_max m)
    (match m_page m, m_64 m with Some 0, true => 2 ^ 64 - 1 | Some 0, false => 2 ^ 32 - 1 | _, true => 2 ^ 48 | _, false => 2 ^ 16 end) /\
  (m_shared m = true -> m_max m <> None).

Variable c : contents.
(** The index spaces with their types. *)
Variable tables : list tblty.
Variable globals : list glbty.
Variable elements : list rf.
(** The module as a constant expression sees it: types, functions and some globals. *)
Definition const_mod (g : list glbty) : resources :=
  module_resources s (mkModul ids (functions c) [] [] g [] [] None (references c) (imported_functions c) (exact_from 0 (imports c))).
(** Constant operators (with the [end] of the expression), and typing. *)
Definition const_op (M : resources) (o : operator) : Prop :=
  match o with
  | Op_I32Const _ | Op_I64Const _ | Op_F32Const _ | Op_F64Const _ | Op_V128Const _ | Op_RefNull _ | Op_RefFunc _ | Op_End
  | Op_I32Add | Op_I32Sub | Op_I32Mul | Op_I64Add | Op_I64Sub | Op_I64Mul
  | Op_StructNew _ | Op_StructNewDefault _ | Op_StructNewDesc _ | Op_StructNewDefaultDesc _ | Op_ArrayNew _ | Op_ArrayNewDefault _ | Op_ArrayNewFixed _ _
  | Op_RefI31 | Op_RefI31Shared | Op_ExternConvertAny | Op_AnyConvertExtern => True
  | Op_GlobalGet i => exists g, r_global_at M i = Some g /\ gl_mut g = false
  | _ => False
  end.
Definition const_ok (M : resources) (t : val) (e : expr) : Prop :=
  Forall (const_op M) e /\
  exists es xs, e = flatten es ++ [Op_End] /\ es_ok (mkCtx M exact false [] [[t]] [t]) [] es [] xs [DVal t].

(** Where they are evaluated only imported globals exist, or the ones before. *)
Definition table_init_ok (d : table_def) (x : tblty) : Prop :=
  match td_init d with
  | None => rt_null (tb_elem x) = true
  | Some e => const_ok (const_mod (firstn (imported_globals c) globals)) (VRef (tb_elem x)) e
  end.
Definition globals_ok : Prop := forall k d x, nth_error (ct_globals c) k = Some d -> nth_error globals (imported_globals c + k) = Some x ->
  const_ok (const_mod (firstn (imported_globals c + k) globals)) (gl_ty x) (gd_init d).
Definition export_ok (x : p_export) : Prop :=
  0 <= px_index x < match px_kind x with
                    | KFunc | KFuncExact => zlen (functions c) | KTable => zlen tables | KMemory => zlen (memory_types c)
                    | KGlobal => zlen globals | KTag => zlen (tag_types c)
                    end.
Definition start_ok : Prop :=
  match ct_start c with Some f => exists t, nthz (functions c) f = Some t /\ func_at t = Some ([], []) | None => True end.
Definition elem_ok (e : elem_def) (x : rf) : Prop :=
  match ed_items e with
  | ItFuncs l => x = abs false false Func /\ Forall (fun f => 0 <= f < zlen (functions c)) l
  | ItExprs ty l => value CT (PRef ty) = Some (VRef x) /\ Forall (const_ok (const_mod globals) (VRef x)) l
  end /\
  match ed_kind e with
  | KdActive i o =>
    exists t, nthz tables i = Some t /\ r_is_subtype T (VRef x) (VRef (tb_elem t)) = true /\ const_ok (const_mod globals) (index_type (tb_64 t)) o
  | _ => True
  end.
Definition data_ok (d : option (Z * expr)) : Prop :=
  match d with
  | Some (i, o) => exists t, nthz (memory_types c) i = Some t /\ const_ok (const_mod globals) (index_type (m_64 t)) o
  | None => True
  end.
(** The module as bodies see it. *)
Definition full_mod : resources :=
  module_resources s (mkModul ids (functions c) tables (map m_64 (memory_types c)) globals (flat_map (fun i => match nthz ids i with Some id => [id] | None => [] end) (tag_types c))
    elements (ct_data_count c) (references c) (imported_functions c) (exact_from 0 (imports c))).

Record parts_ok : Prop := mkPartsOk
  { po_functions : Forall (fun i => func_at i <> None) (functions c);
    po_tables : Forall2 table_ok (table_types c) tables;
    po_inits : Forall2 table_init_ok (ct_tables c) (skipn (List.length tables - List.length (ct_tables c)) tables);
    po_memories : Forall memory_ok (memory_types c);
    po_tags : Forall (fun i => func_at i <> None) (tag_types c);
    po_globals : Forall2 global_ok (global_types c) globals;
    po_global_inits : globals_ok;
    po_exports : Forall export_ok (ct_exports c);
    po_names : NoDup (map px_name (ct_exports c));
    po_start : start_ok;
    po_elements : Forall2 elem_ok (ct_elements c) elements;
    po_data : Forall data_ok (ct_data c);
    po_code : Forall2 (fun ty b => func_ok full_mod exact ty (bd_locals b) (bd_ops b)) (ct_functions c) (ct_code c) }.

(** The limits of this implementation (limits.rs); the size of a module's imports and exports counts two for a function or tag, and its parameters and results. *)
Definition type_size (i : Z) : Z := match func_at i with Some (ps, rs) => 2 + zlen ps + zlen rs | None => 0 end.
Definition import_size (e : p_entity) : Z := match e with NFunc i | NFuncExact i | NTag i => type_size i | _ => 1 end.
Definition export_size (x : p_export) : Z :=
  match px_kind x with
  | KFunc | KFuncExact => match nthz (functions c) (px_index x) with Some t => type_size t | None => 0 end
  | KTag => match nthz (tag_types c) (px_index x) with Some t => type_size t | None => 0 end
  | _ => 1
  end.
Definition sum (l : list Z) : Z := fold_right Z.add 0 l.
Record limits : Prop := mkLimits
  { li_groups : zlen (ct_types c) <= 1000000;
    li_imports : zlen (ct_imports c) <= 1000000;
    li_functions : zlen (functions c) <= 1000000;
    li_tables : zlen (table_types c) <= 100;
    li_memories : zlen (memory_types c) <= 100;
    li_tags : zlen (tag_types c) <= 1000000;
    li_globals : zlen (global_types c) <= 1000000;
    li_exports : zlen (ct_exports c) <= 1000000;
    li_elements : zlen (ct_elements c) <= 100000;
    li_data : zlen (ct_data c) <= 100000;
    li_data_count : match ct_data_count c with Some n => n <= 100000 | None => True end;
    li_entries : Forall (fun e => match ed_items e with ItFuncs l => zlen l <= 10000000 | ItExprs _ l => zlen l <= 10000000 end) (ct_elements c);
    li_code : Forall (fun b => bd_size b <= 7654321) (ct_code c);
    li_size : 1 + sum (map import_size (imports c)) + sum (map export_size (ct_exports c)) < 1000000 }.
End Validity.

(** A module validated by a validator that has seen the types of [h] before: its types are added under a new number [k]. *)
Definition module_ok (exact : bool) (h : list event) (k : Z) (c : contents) : Prop :=
  exists w tables globals elements, reached (h ++ map (AddGroup k) (ct_types c)) w /\
    parts_ok exact (w_store w) (w_scope w k) c tables globals elements /\ limits (w_store w) (w_scope w k) c.

(** * What the theorems assume about a module *)
(** All expressions of a module, with the bodies of its functions. *)
Definition exprs (c : contents) : list expr :=
  flat_map (fun d => match td_init d with Some e => [e] | None => [] end) (ct_tables c) ++ map gd_init (ct_globals c) ++
  flat_map (fun e => match ed_kind e with KdActive _ o => [o] | _ => [] end ++ match ed_items e with ItExprs _ l => l | ItFuncs _ => [] end) (ct_elements c) ++
  map bd_ops (ct_code c) ++ flat_map (fun d => match d with Some (_, o) => [o] | None => [] end) (ct_data c).
(** Their bytes. *)
Definition bytes_in (ft : features) (pos : Z) (d : sec) : list (list Z) :=
  match d with
  | STables l => flat_map (fun d => match ptd_init d with Some b => [b] | None => [] end) l
  | SGlobals l => map pgd_init l
  | SElements l => flat_map (fun e => match pe_kind e with PKActive _ b => [b] | _ => [] end ++
      match pe_items e with PIExprs _ b => match section_items read_const ft pos b with Ok l => l | Err _ => [] end | PIFuncs _ => [] end) l
  | SCode l => l
  | SData l => flat_map (fun d => match pd_kind d with PDActive _ b => [b] | PDPassive => [] end) l
  | _ => []
  end.
(** A function type has at most 1000 parameters, which is a limit of the reader of types. *)
Definition few_params (h : list event) : Prop :=
  Forall (fun e => match e with
    | AddGroup _ g => Forall (fun t => match c_inner (s_comp t) with IFunc ps _ => zlen ps <= 1000 | _ => True end) g
    | HostFunc ps _ => zlen ps <= 1000
    | Alias _ _ _ => True
    end) h.
