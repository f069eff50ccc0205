(** The state of the function validator and its primitive actions
    (crates/wasmparser/src/validator/operators.rs, operators/transaction.rs).

    Simplifications, valid for the whole area:
    - a Rust [Vec] used as a stack is a list with its top first;
    - types are their structure; that their packed form loses nothing is the subject of C12;
    - what the module provides ([WasmModuleResources], resources.rs:29-125, a public trait) is a
      record of functions, of which nothing is assumed unless a theorem says so;
    - [popped_types_tmp] is empty before and after every method and is left out;
    - messages built with [format!] are abbreviated to their fixed part;
    - a panic is an outcome of its own, [VPanic]. *)
From Verif.Base Require Import Prelude.
From Verif.Locals Require Import Model.
From Verif.Types Require Import RefModel CodecModel CanonModel.
From Verif.Instr Require Import ImmModel.

(** [ValType], [RefType], [HeapType], with references to types in any of the three forms. *)
Definition val := vty uidx.
Definition rf := rty uidx.
Definition hp := heap uidx.
Definition val_eqb (a b : val) : bool :=
  if vty_dec (fun x y : uidx => ltac:(decide equality; apply Z.eq_dec) : {x = y} + {x <> y}) a b then true else false.
Definition hp_eqb (a b : hp) : bool :=
  if heap_dec (fun x y : uidx => ltac:(decide equality; apply Z.eq_dec) : {x = y} + {x <> y}) a b then true else false.

(** [PackedIndex] holds 20 bits (types.rs:39-69), [RefType::new] (1225-1268). *)
Definition idx_of (u : uidx) : Z := match u with UModule i | URecGroup i | UId i => i end.
Definition packs (u : uidx) : bool := can_represent_index (idx_of u).
Definition r_new (nullable : bool) (h : hp) : option rf :=
  match h with
  | HC i | HX i => if packs i then Some (mkR nullable h) else None
  | HA _ _ => Some (mkR nullable h)
  end.
(** [RefType::as_non_null], [nullable], [shared], [difference] (types.rs:1300-1310, 1378-1395). *)
Definition rf_non_null (r : rf) : rf := mkR false (rt_heap r).
Definition rf_nullable (r : rf) : rf := mkR true (rt_heap r).
Definition rf_difference (a b : rf) : rf := mkR (if rt_null b then false else rt_null a) (rt_heap a).
(** [is_concrete_type_ref], [is_exact_type_ref], [is_none_ref] (types.rs:1313-1320, 1369-1371). *)
Definition rf_concrete (r : rf) : bool := match rt_heap r with HA _ _ => false | _ => true end.
Definition rf_exact (r : rf) : bool := match rt_heap r with HX _ => true | _ => false end.
Definition rf_none (r : rf) : bool := match rt_heap r with HA _ ANone => true | _ => false end.
(** Constants (types.rs:905-917, 1116-1151, 1193-1196). *)
Definition abs (nullable shared : bool) (t : aht) : rf := mkR nullable (HA shared t).
Definition FUNCREF : val := VRef (abs true false Func).
Definition EXNREF : val := VRef (abs true false Exn).
(** [is_defaultable] (types.rs:934-939), [is_packed], [unpack] (809-823). *)
Definition is_defaultable (v : val) : bool := match v with VRef r => rt_null r | _ => true end.
Definition is_packed (s : sty uidx) : bool := match s with SVal _ => false | _ => true end.
Definition st_unpack (s : sty uidx) : val := match s with SVal v => v | _ => VI32 end.

(** The immediates of operators, out of their packed form. *)
Definition of_heap (h : heap_type) : hp := match h with HAbstract s t => HA s t | HConcrete i => HC i | HExact i => HX i end.
Definition of_ref (r : Z) : option rf := match heap_type_of r with Some h => Some (mkR (is_nullable r) (of_heap h)) | None => None end.
Definition of_val (v : p_val) : option val :=
  match v with
  | PI32 => Some VI32 | PI64 => Some VI64 | PF32 => Some VF32 | PF64 => Some VF64 | PV128 => Some VV128
  | PRef r => match of_ref r with Some r => Some (VRef r) | None => None end
  end.

(** [FuncType], [TableType], [MemoryType], [GlobalType] (types.rs), what the validator looks at. *)
Record fnty := mkFn { fn_params : list val; fn_results : list val }.
Record tblty := mkTbl { tb_elem : rf; tb_64 : bool; tb_shared : bool }.
Record glbty := mkGlb { gl_ty : val; gl_mut : bool; gl_shared : bool }.
(** [index_type] (types.rs:1955-1961, 2006-2012). *)
Definition index_type (is64 : bool) : val := if is64 then VI64 else VI32.

(** The switches of [WasmFeatures] the operator validator asks about (features.rs:170-259). *)
Inductive feature :=
| f_mvp | f_floats | f_simd | f_relaxed_simd | f_threads | f_shared_everything_threads | f_saturating_float_to_int
| f_reference_types | f_bulk_memory | f_bulk_memory_opt | f_sign_extension | f_exceptions | f_tail_call | f_function_references
| f_memory_control | f_gc | f_gc_types | f_legacy_exceptions | f_stack_switching | f_wide_arithmetic | f_custom_descriptors
| f_multi_value.

(** [trait WasmModuleResources] (resources.rs:29-125); a memory is whether it is 64-bit. *)
Record resources := mkRes
  { r_table_at : Z -> option tblty;
    r_memory_at : Z -> option bool;
    r_tag_at : Z -> option fnty;
    r_global_at : Z -> option glbty;
    r_sub_type_at : Z -> option (subty uidx);
    r_sub_type_at_id : Z -> option (subty uidx);      (* [None]: the panic on an unknown id *)
    r_type_id_of_function : Z -> option Z;
    r_type_index_of_function : Z -> option Z;
    r_element_type_at : Z -> option rf;
    r_is_subtype : val -> val -> bool;
    r_is_shared : rf -> bool;
    r_check_heap_type : hp -> Z -> res hp;
    r_top_type : hp -> hp;
    r_data_count : option Z;
    r_is_function_referenced : Z -> bool;
    r_has_function_exact_type : Z -> bool }.

(** [enum MaybeType] (operators.rs:267-294), [BlockType] with unpacked types, [struct Frame] (223-239). *)
Inductive maybe (T : Type) := Bottom | UnknownRef (t : option aht) | Known (t : T).
Arguments Bottom {T}. Arguments UnknownRef {T} t. Arguments Known {T} t.
Inductive block := BEmpty | BType (v : val) | BFunc (i : Z).
Record frame := mkFrame
  { fr_kind : frame_kind; fr_block : block; fr_height : nat; fr_unreachable : bool; fr_init_height : nat }.

(** [struct RollbackLog] and [enum Transaction] (transaction.rs:6-28); newest entry first in [lg_operands]
    and [lg_frames]. *)
Record rollback_log := mkLog
  { lg_operands : list (option (maybe val));
    lg_frames : list (option frame);
    lg_inits : list Z;
    lg_init_height : nat;
    lg_unreachable : bool }.

(** [struct OperatorValidator] (operators.rs:50-83); [vs_log] is [None] when no transaction is pending;
    [vs_trace] is [pop_push_log], which exists in debug builds only, newest entry first. *)
Record vst := mkVst
  { vs_locals : locals val;
    vs_inits : inits_t;
    vs_operands : list (maybe val);
    vs_control : list frame;
    vs_shared : bool;
    vs_log : option rollback_log;
    vs_trace : list bool }.

Definition with_inits (s : vst) (i : inits_t) : vst := mkVst (vs_locals s) i (vs_operands s) (vs_control s) (vs_shared s) (vs_log s) (vs_trace s).
Definition with_operands (s : vst) (l : list (maybe val)) : vst := mkVst (vs_locals s) (vs_inits s) l (vs_control s) (vs_shared s) (vs_log s) (vs_trace s).
Definition with_control (s : vst) (c : list frame) : vst := mkVst (vs_locals s) (vs_inits s) (vs_operands s) c (vs_shared s) (vs_log s) (vs_trace s).
Definition with_log (s : vst) (l : option rollback_log) : vst := mkVst (vs_locals s) (vs_inits s) (vs_operands s) (vs_control s) (vs_shared s) l (vs_trace s).
Definition with_trace (s : vst) (t : list bool) : vst := mkVst (vs_locals s) (vs_inits s) (vs_operands s) (vs_control s) (vs_shared s) (vs_log s) t.

(** * Methods taking [&mut self] and returning [Result] *)
Inductive vres (A : Type) := VOk (a : A) (s : vst) | VErr (e : error) (s : vst) | VPanic.
Arguments VOk {A} a s. Arguments VErr {A} e s. Arguments VPanic {A}.
Definition V (A : Type) := vst -> vres A.
Definition vret {A} (a : A) : V A := fun s => VOk a s.
Definition vbind {A B} (m : V A) (k : A -> V B) : V B :=
  fun s => match m s with VOk a s' => k a s' | VErr e s' => VErr e s' | VPanic => VPanic end.
Definition vpanic {A} : V A := fun _ => VPanic.
Notation "'let!' x := m 'in' k" := (vbind m (fun x => k)) (at level 200, x pattern, m at level 100, k at level 200).
Notation "m ;; k" := (vbind m (fun _ => k)) (at level 100, right associativity).

(** [OperatorValidatorTemp] (operators.rs:241-245): the validator with the module's resources and the offset
    of the operator, and [features]. *)
Record env := mkEnv { e_res : resources; e_feat : feature -> bool; e_at : Z }.

Section Env.
Variable E : env.
Definition vfail {A} (msg : string) : V A := fun s => VErr (err_new msg (e_at E)) s.
Definition vlift {A} (r : res A) : V A := fun s => match r with Ok a => VOk a s | Err e => VErr e s end.
Definition vget {A} (f : vst -> A) : V A := fun s => VOk (f s) s.
(** [.unwrap()], [.expect()] *)
Definition vunwrap {A} (o : option A) : V A := match o with Some a => vret a | None => vpanic end.
(** [.ok_or_else(..)?], [if !cond { bail! }] *)
Definition vsome {A} (o : option A) (msg : string) : V A := match o with Some a => vret a | None => vfail msg end.
Definition vcheck (b : bool) (msg : string) : V unit := if b then vret tt else vfail msg.
(** [require_feature::..] (features.rs:110-135). *)
Definition require (f : feature) (msg : string) : V unit := vcheck (e_feat E f) msg.

Fixpoint vall {A} (f : A -> V unit) (l : list A) : V unit :=
  match l with [] => vret tt | a :: l => f a ;; vall f l end.

(** [Transaction::map] (transaction.rs:68-72). *)
Definition log_map (f : rollback_log -> rollback_log) (s : vst) : vst :=
  with_log s (match vs_log s with Some l => Some (f l) | None => None end).
Definition log_operand (x : option (maybe val)) (l : rollback_log) : rollback_log :=
  mkLog (x :: lg_operands l) (lg_frames l) (lg_inits l) (lg_init_height l) (lg_unreachable l).
Definition log_frame (x : option frame) (is : list Z) (l : rollback_log) : rollback_log :=
  mkLog (lg_operands l) (x :: lg_frames l) (lg_inits l ++ is) (lg_init_height l) (lg_unreachable l).
Definition log_unreachable (l : rollback_log) : rollback_log :=
  mkLog (lg_operands l) (lg_frames l) (lg_inits l) (lg_init_height l) true.

(** [record_pop], [record_any_pop], [record_push] (operators.rs:567-586). *)
Definition record_any_pop (s : vst) : vst := with_trace s (false :: vs_trace s).
Definition record_pop (t : maybe val) (s : vst) : vst := record_any_pop (log_map (log_operand (Some t)) s).
Definition record_push (s : vst) : vst :=
  let s := log_map (log_operand None) s in with_trace s (true :: vs_trace s).

(** [push_operand] (operators.rs:666-691). *)
Definition push_maybe (t : maybe val) : V unit := fun s => VOk tt (record_push (with_operands s (t :: vs_operands s))).
Definition push_operand (t : val) : V unit := push_maybe (Known t).

(** The check of [_pop_operand] (operators.rs:863-912) of what was found against what is expected. *)
Definition check_operand (actual : maybe val) (expected : option val) : V unit :=
  match expected with
  | None => vret tt
  | Some expected =>
    match actual, expected with
    | Bottom, _ => vret tt
    | UnknownRef actual_ty, VRef expected =>
      match actual_ty with
      | None => vret tt
      | Some actual =>
        vcheck (r_is_subtype (e_res E) (VRef (abs false (r_is_shared (e_res E) expected) actual)) (VRef expected))
          "type mismatch: expected {}, found {}"
      end
    | Known actual, expected => vcheck (r_is_subtype (e_res E) actual expected) "type mismatch: expected {}, found {}"
    | UnknownRef _, _ => vfail "type mismatch: expected {}, found heap type"
    end
  end.
(** [_pop_operand] (operators.rs:831-914). *)
Definition slow_pop_operand (expected : option val) (popped : option (maybe val)) : V (maybe val) := fun s =>
  let s := match popped with Some t => with_operands s (t :: vs_operands s) | None => s end in
  match vs_control s with
  | [] => VPanic
  | control :: _ =>
    let at_height := (List.length (vs_operands s) =? fr_height control)%nat in
    if at_height && fr_unreachable control
    then (check_operand Bottom expected ;; vret Bottom) (record_any_pop s)
    else if at_height
    then vfail (match expected with Some _ => "type mismatch: expected {desc} but nothing on stack"
                                  | None => "type mismatch: expected a type but nothing on stack" end) s
    else match vs_operands s with
         | [] => VPanic
         | ty :: rest => (check_operand ty expected ;; vret ty) (record_pop ty (with_operands s rest))
         end
  end.
(** [pop_operand] (operators.rs:797-829). *)
Definition pop_operand (expected : option val) : V (maybe val) := fun s =>
  match vs_operands s with
  | Known actual :: rest =>
    let s1 := with_operands s rest in
    let slow := slow_pop_operand expected (Some (Known actual)) s1 in
    match expected with
    | Some e =>
      if val_eqb actual e then
        match vs_control s with
        | control :: _ =>
          if (fr_height control <=? List.length rest)%nat then VOk (Known actual) (record_pop (Known actual) s1)
          else slow
        | [] => slow
        end
      else slow
    | None => slow
    end
  | other :: rest => slow_pop_operand expected (Some other) (with_operands s rest)
  | [] => slow_pop_operand expected None s
  end.
(** [self.pop_operand(Some(ty))?] with the type popped not used. *)
Definition pop (t : val) : V unit := pop_operand (Some t) ;; vret tt.
(** [for ty in tys.rev() { self.pop_operand(Some(ty))?; }], [for ty in tys { self.push_operand(ty)?; }]. *)
Definition pops (l : list val) : V unit := vall pop (rev l).
Definition pushes (l : list val) : V unit := vall push_operand l.

(** [unreachable] (operators.rs:1021-1039). *)
Definition unreachable : V unit := fun s =>
  match vs_control s with
  | [] => VPanic
  | control :: rest =>
    let s := if fr_unreachable control then s else log_map log_unreachable s in
    let s := with_control s (mkFrame (fr_kind control) (fr_block control) (fr_height control) true (fr_init_height control) :: rest) in
    if (List.length (vs_operands s) <? fr_height control)%nat then VPanic    (* split_off *)
    else
      let n := (List.length (vs_operands s) - fr_height control)%nat in
      let operands := firstn n (vs_operands s) in
      VOk tt (log_map (fun l => fold_left (fun l op => log_operand (Some op) l) operands l)
                (with_operands s (skipn n (vs_operands s))))
  end.

(** * Types of the module (operators.rs:1633-1845) *)
(** [sub_type_at], [struct_type_at], [struct_field_at], [mutable_struct_field_at] (1644-1691). *)
Definition sub_type_at (i : Z) : V (subty uidx) := vsome (r_sub_type_at (e_res E) i) "unknown type: type index out of bounds".
Definition check_shared (shared : bool) (msg : string) : V unit :=
  let! sh := vget vs_shared in vcheck (negb (sh && negb shared)) msg.
Definition struct_type_at (i : Z) : V (list (fty uidx)) :=
  let! t := sub_type_at i in
  match c_inner (s_comp t) with
  | IStruct fs => check_shared (c_shared (s_comp t)) "shared functions cannot access unshared structs" ;; vret fs
  | _ => vfail "expected struct type at index {at}, found {sub_ty}"
  end.
Definition struct_field_at (i f : Z) : V (fty uidx) :=
  let! fs := struct_type_at i in vsome (nth_error fs (Z.to_nat f)) "unknown field: field index out of bounds".
Definition mutable_struct_field_at (i f : Z) : V (fty uidx) :=
  let! fd := struct_field_at i f in
  vcheck (fd_mut fd) "invalid struct modification: struct field is immutable" ;; vret fd.
(** [array_type_at], [mutable_array_type_at] (1693-1720). *)
Definition array_type_at (i : Z) : V (fty uidx) :=
  let! t := sub_type_at i in
  match c_inner (s_comp t) with
  | IArray fd => check_shared (c_shared (s_comp t)) "shared functions cannot access unshared arrays" ;; vret fd
  | _ => vfail "expected array type at index {at}, found {sub_ty}"
  end.
Definition mutable_array_type_at (i : Z) : V (fty uidx) :=
  let! fd := array_type_at i in
  vcheck (fd_mut fd) "invalid array modification: array is immutable" ;; vret fd.
(** [func_type_at], [cont_type_at], [func_type_of_cont_type] (1722-1758). *)
Definition func_type_at (i : Z) : V fnty :=
  let! t := sub_type_at i in
  match c_inner (s_comp t) with
  | IFunc ps rs => check_shared (c_shared (s_comp t)) "shared functions cannot access unshared functions" ;; vret (mkFn ps rs)
  | _ => vfail "expected func type at index {at}, found {sub_ty}"
  end.
Definition cont_type_at (i : Z) : V uidx :=
  let! t := sub_type_at i in
  match c_inner (s_comp t) with
  | ICont c => check_shared (c_shared (s_comp t)) "shared continuations cannot access unshared continuations" ;; vret c
  | _ => vfail "non-continuation type {at}"
  end.
(** [as_core_type_id().expect(..)]. *)
Definition core_type_id (u : uidx) : V Z := match u with UId i => vret i | _ => vpanic end.
Definition sub_type_at_id (i : Z) : V (subty uidx) := vunwrap (r_sub_type_at_id (e_res E) i).
Definition func_type_of_cont_type (c : uidx) : V fnty :=
  let! id := core_type_id c in
  let! t := sub_type_at_id id in
  match c_inner (s_comp t) with IFunc ps rs => vret (mkFn ps rs) | _ => vpanic end.  (* unwrap_func *)
(** [tag_at], [exception_tag_at] (1760-1778), [global_type_at], [table_type_at] (1780-1811), [element_type_at] (1633-1642). *)
Definition tag_at (i : Z) : V fnty := vsome (r_tag_at (e_res E) i) "unknown tag {}: tag index out of bounds".
Definition exception_tag_at (i : Z) : V fnty :=
  let! f := tag_at i in
  vcheck (zlen (fn_results f) =? 0) "invalid exception type: non-empty tag result type" ;; vret f.
Definition global_type_at (i : Z) : V glbty :=
  match r_global_at (e_res E) i with
  | Some g => check_shared (gl_shared g) "shared functions cannot access unshared globals" ;; vret g
  | None => vfail "unknown global: global index out of bounds"
  end.
Definition table_type_at (i : Z) : V tblty :=
  match r_table_at (e_res E) i with
  | Some t => check_shared (tb_shared t) "shared functions cannot access unshared tables" ;; vret t
  | None => vfail "unknown table {table}: table index out of bounds"
  end.
Definition element_type_at (i : Z) : V rf :=
  vsome (r_element_type_at (e_res E) i) "unknown elem segment {}: segment index out of bounds".
(** [params], [results], [label_types] (1813-1837), [check_data_segment] (1839-1845). *)
Definition params (b : block) : V (list val) :=
  match b with BEmpty | BType _ => vret [] | BFunc t => let! f := func_type_at t in vret (fn_params f) end.
Definition results (b : block) : V (list val) :=
  match b with BEmpty => vret [] | BType v => vret [v] | BFunc t => let! f := func_type_at t in vret (fn_results f) end.
Definition label_types (b : block) (k : frame_kind) : V (list val) :=
  match k with FLoop => params b | _ => results b end.
Definition check_data_segment (i : Z) : V unit :=
  match r_data_count (e_res E) with
  | None => vfail "data count section required"
  | Some n => vcheck (i <? n) "unknown data segment {data_index}"
  end.

(** * Control (operators.rs:1047-1117) *)
(** [push_bare_ctrl] (1059-1072), [push_ctrl] (1047-1055). *)
Definition push_bare_ctrl (k : frame_kind) (b : block) : V unit := fun s =>
  VOk tt (log_map (log_frame None [])
            (with_control s (mkFrame k b (List.length (vs_operands s)) false (inits_height (vs_inits s)) :: vs_control s))).
Definition push_ctrl (k : frame_kind) (b : block) : V unit :=
  push_bare_ctrl k b ;; let! ps := params b in pushes ps.
(** The end of [pop_ctrl] (1100-1105): removes the frame and resets the locals set in it. *)
Definition drop_ctrl : V frame := fun s =>
  match vs_control s with
  | [] => VPanic
  | fr :: rest =>
    match inits_pop (vs_inits s) (fr_init_height fr) with
    | None => VPanic
    | Some (is, undone) => VOk fr (log_map (log_frame (Some fr) undone) (with_inits (with_control s rest) is))
    end
  end.
(** [pop_ctrl] (1078-1106). *)
Definition pop_ctrl : V frame :=
  let! c := vget vs_control in
  match c with
  | [] => vpanic
  | fr :: _ =>
    let! ts := results (fr_block fr) in
    pops ts ;;
    let! n := vget (fun s => List.length (vs_operands s)) in
    vcheck (n =? fr_height fr)%nat "type mismatch: values remaining on stack at end of block" ;;
    drop_ctrl
  end.
(** [jump] (1112-1117, 500-505). *)
Definition jump (depth : Z) : V (block * frame_kind) :=
  let! c := vget vs_control in
  match c with
  | [] => vpanic
  | _ => match nth_error c (Z.to_nat depth) with
         | Some fr => vret (fr_block fr, fr_kind fr)
         | None => vfail "unknown label: branch depth too large"
         end
  end.
(** [local] (1008-1017) and [LocalInits]. *)
Definition local (i : Z) : V val :=
  let! l := vget vs_locals in vsome (Model.get l i) "unknown local {}: local index out of bounds".
Definition local_is_uninit (i : Z) : V bool := let! s := vget vs_inits in vunwrap (is_uninit s i).
Definition local_set_init (i : Z) : V unit := fun s =>
  match set_init (vs_inits s) i with Some is => VOk tt (with_inits s is) | None => VPanic end.

(** * [begin_try_op], [commit], [rollback] (operators.rs:589-641, transaction.rs:38-60) *)
Definition begin_try_op (s : vst) : option vst :=
  match vs_log s with
  | Some _ => None                       (* "transaction already in progress" *)
  | None => Some (with_log s (Some (mkLog [] [] [] (inits_height (vs_inits s)) false)))
  end.
Definition commit (s : vst) : vst := with_log s None.
Definition undo_operand (ops : list (maybe val)) (x : option (maybe val)) : list (maybe val) :=
  match x with None => tl ops | Some t => t :: ops end.
Definition undo_frame (ci : option (list frame * inits_t)) (x : option frame) : option (list frame * inits_t) :=
  match ci with
  | None => None
  | Some (c, is) =>
    match x with
    | None => match c with
              | [] => None
              | fr :: c => match inits_pop is (fr_init_height fr) with Some (is, _) => Some (c, is) | None => None end
              end
    | Some fr => Some (fr :: c, is)
    end
  end.
Definition undo_init (is : option inits_t) (i : Z) : option inits_t :=
  match is with Some is => set_init is i | None => None end.
(** [None] is a panic. *)
Definition rollback (s : vst) : option vst :=
  match vs_log s with
  | None => None
  | Some lg =>
    match (if lg_unreachable lg
           then match vs_control s with
                | [] => None
                | fr :: c => Some (mkFrame (fr_kind fr) (fr_block fr) (fr_height fr) false (fr_init_height fr) :: c)
                end
           else Some (vs_control s)) with
    | None => None
    | Some c =>
      let ops := fold_left undo_operand (lg_operands lg) (vs_operands s) in
      match fold_left undo_frame (lg_frames lg) (Some (c, vs_inits s)) with
      | None => None
      | Some (c, is) =>
        match fold_left undo_init (lg_inits lg) (Some is) with
        | None => None
        | Some is =>
          match (if (lg_init_height lg <? inits_height is)%nat
                 then match inits_pop is (lg_init_height lg) with Some (is, _) => Some is | None => None end
                 else Some is) with
          | None => None
          | Some is => Some (with_log (with_control (with_operands (with_inits s is) ops) c) None)
          end
        end
      end
    end
  end.
End Env.
