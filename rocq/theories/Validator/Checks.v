(** The [check_*] methods of the operator validator and the [visit_*] methods that are not uniform
    (crates/wasmparser/src/validator/operators.rs, operators/simd.rs, validator.rs:239-335).
    The remaining [visit_*] methods are transcribed by tools/gen_valid.py into Visit.v.
    [debug_assert!]s are left out. *)
From Verif.Base Require Import Prelude.
From Verif.Reader Require Import Model.
From Verif.Locals Require Import Model.
From Verif.Types Require Import RefModel CodecModel CanonModel.
From Verif.Instr Require Import ImmModel.
From Verif.Validator Require Import State.

Section Env.
Variable E : env.
Notation vfail := (vfail E). Notation vsome := (vsome E). Notation vcheck := (vcheck E). Notation require := (require E).
Notation pop_operand := (pop_operand E). Notation pop := (pop E). Notation pops := (pops E).
Notation params := (params E). Notation results := (results E). Notation label_types := (label_types E). Notation jump := (jump E).
Notation func_type_at := (func_type_at E). Notation sub_type_at := (sub_type_at E). Notation cont_type_at := (cont_type_at E).
Notation func_type_of_cont_type := (func_type_of_cont_type E). Notation sub_type_at_id := (sub_type_at_id E).
Notation struct_type_at := (struct_type_at E). Notation struct_field_at := (struct_field_at E).
Notation mutable_struct_field_at := (mutable_struct_field_at E). Notation array_type_at := (array_type_at E).
Notation mutable_array_type_at := (mutable_array_type_at E). Notation tag_at := (tag_at E). Notation exception_tag_at := (exception_tag_at E).
Notation global_type_at := (global_type_at E). Notation table_type_at := (table_type_at E). Notation element_type_at := (element_type_at E).
Notation check_data_segment := (check_data_segment E). Notation pop_ctrl := (pop_ctrl E). Notation push_ctrl := (push_ctrl E).
Notation local := (local E).
Definition sub (a b : val) : bool := r_is_subtype (e_res E) a b.

(** [WasmFeatures::check_ref_type] (validator.rs:250-335), [check_value_type] (239-248). *)
Definition feature_check_ref_type (r : rf) : V unit :=
  require f_reference_types "reference types support is not enabled" ;;
  match rt_heap r with
  | HC _ => if e_feat E f_gc then vret tt
            else require f_function_references "function references required for index reference types"
  | HX _ => require f_custom_descriptors "custom descriptors required for exact reference types"
  | HA shared ty =>
    (if shared then require f_shared_everything_threads "shared reference types require the shared-everything-threads proposal" else vret tt) ;;
    match ty with
    | Func | Exn => vret tt
    | _ => require f_gc_types "gc types are disallowed but found type which requires gc"
    end ;;
    match ty, rt_null r with
    | (Func | Extern), true => vret tt
    | (Func | Extern), false => require f_function_references "function references required for non-nullable types"
    | (Any | ANone | Eq | Struct | Array | I31 | NoExtern | NoFunc), _ => require f_gc "heap types not supported without the gc feature"
    | (Exn | NoExn), _ => require f_exceptions "exception refs not supported without the exception handling feature"
    | (Cont | NoCont), _ => require f_stack_switching "continuation refs not supported without the stack switching feature"
    end
  end.
Definition feature_check_value_type (v : val) : V unit :=
  match v with
  | VI32 | VI64 => vret tt
  | VF32 | VF64 => require f_floats "floating-point support is disabled"
  | VRef r => feature_check_ref_type r
  | VV128 => require f_simd "SIMD support is not enabled"
  end.
(** [check_heap_type], [check_ref_type], [check_value_type] of the resources (resources.rs:88-115); the argument
    they update is their result. *)
Definition check_heap_type (h : hp) : V hp := vlift (r_check_heap_type (e_res E) h (e_at E)).
Definition check_ref_type (r : rf) : V rf :=
  let! h := check_heap_type (rt_heap r) in vunwrap (r_new (rt_null r) h).
Definition check_value_type (v : val) : V val :=
  feature_check_value_type v ;;
  match v with VRef r => let! r := check_ref_type r in vret (VRef r) | _ => vret v end.

(** [push_concrete_ref], [push_exact_ref], [push_exact_ref_if_available], [pop_concrete_ref] (operators.rs:693-741). *)
Definition ref_to (nullable : bool) (h : hp) : V val :=
  let! h := check_heap_type h in
  let! r := vsome (r_new nullable h) "implementation limit: type index too large" in vret (VRef r).
Definition push_concrete_ref (nullable : bool) (i : Z) : V unit :=
  let! t := ref_to nullable (HC (UModule i)) in push_operand t.
Definition push_exact_ref (nullable : bool) (i : Z) : V unit :=
  let! t := ref_to nullable (HX (UModule i)) in push_operand t.
Definition push_exact_ref_if_available (nullable : bool) (i : Z) : V unit :=
  if e_feat E f_custom_descriptors then push_exact_ref nullable i else push_concrete_ref nullable i.
Definition pop_concrete_ref (nullable : bool) (i : Z) : V (maybe val) :=
  let! t := ref_to nullable (HC (UModule i)) in pop_operand (Some t).
(** [pop_concrete_or_exact_ref] (743-762). *)
Definition pop_concrete_or_exact_ref (nullable : bool) (i : Z) : V (maybe val * bool) :=
  let! ty := pop_concrete_ref nullable i in
  match ty with
  | Known (VRef rt) =>
    if rf_exact rt || rf_none rt then
      let! expected := ref_to nullable (HX (UModule i)) in vret (ty, sub (VRef rt) expected)
    else vret (ty, false)
  | Bottom => vret (ty, true)
  | _ => vret (ty, false)
  end.
(** [pop_push_label_types] (766-777). *)
Definition pop_push_label_types (l : list val) : V unit := pops l ;; pushes l.
(** [match_operand], [match_stack_operands] (918-944). *)
Definition match_operand (actual expected : val) : V unit := push_operand actual ;; pop expected.
Fixpoint pop_list (l : list val) : V (list (maybe val)) :=   (* in the order given; the types found, last first *)
  match l with
  | [] => vret []
  | t :: l => let! a := pop_operand (Some t) in let! r := pop_list l in vret (r ++ [a])
  end.
Definition match_stack_operands (l : list val) : V unit :=
  let! found := pop_list (rev l) in vall push_maybe found.
(** [pop_ref] (947-958), [pop_maybe_shared_ref] (965-1004). *)
Definition pop_ref (expected : option rf) : V (maybe rf) :=
  let! t := pop_operand (match expected with Some r => Some (VRef r) | None => None end) in
  match t with
  | Bottom => vret (UnknownRef None)
  | UnknownRef t => vret (UnknownRef t)
  | Known (VRef r) => vret (Known r)
  | Known _ => vfail "type mismatch: expected ref but found {}"
  end.
Definition pop_maybe_shared_ref (expected : aht) : V (maybe rf) :=
  let! t := pop_ref None in
  match t with
  | Bottom => vret Bottom
  | UnknownRef None => vret (UnknownRef None)
  | UnknownRef (Some actual) =>
    vcheck (aht_is_subtype actual expected) "type mismatch: expected subtype of {}, found {}" ;; vret (UnknownRef (Some actual))
  | Known actual =>
    vcheck (sub (VRef actual) (VRef (abs true (r_is_shared (e_res E) actual) expected)))
      "type mismatch: expected subtype of {expected}, found {actual}" ;;
    vret (Known actual)
  end.
(** [From<MaybeType<RefType>>], [as_non_null], [is_maybe_shared] (317-344). *)
Definition maybe_val (t : maybe rf) : maybe val :=
  match t with Bottom => Bottom | UnknownRef t => UnknownRef t | Known r => Known (VRef r) end.
Definition maybe_non_null (t : maybe rf) : maybe rf := match t with Known r => Known (rf_non_null r) | t => t end.
Definition is_maybe_shared (t : maybe rf) : option bool := match t with Known r => Some (r_is_shared (e_res E) r) | _ => None end.

(** [check_memory_index], [check_memarg], [check_floats_enabled], [check_shared_memarg] (1121-1161). *)
Definition check_memory_index (m : Z) : V val :=
  let! is64 := vsome (r_memory_at (e_res E) m) "unknown memory {}" in vret (index_type is64).
Definition check_memarg (m : p_memarg) : V val :=
  let! t := check_memory_index (pm_memory m) in
  vcheck (pm_align m <=? pm_max_align m) "invalid memop alignment: alignment must not be larger than natural" ;;
  vcheck (negb (val_eqb t VI32 && (0xFFFFFFFF <? pm_offset m))) "offset out of range: must be <= 2**32" ;;
  vret t.
Definition check_floats_enabled : V unit := require f_floats "floating-point instruction disallowed".
Definition check_shared_memarg (m : p_memarg) : V val :=
  vcheck (pm_align m =? pm_max_align m) "atomic instructions must always specify maximum alignment" ;; check_memarg m.
(** [check_block_type] (1164-1181); the block type it updates is its result. *)
Definition check_block_type (b : p_block) : V block :=
  match b with
  | PBEmpty => vret BEmpty
  | PBType v => let! v := vunwrap (of_val v) in let! v := check_value_type v in vret (BType v)
  | PBFunc i =>
    require f_multi_value "blocks, loops, and ifs may only produce a resulttype when multi-value is not enabled" ;;
    func_type_at i ;; vret (BFunc i)
  end.
(** [type_of_function] (1185-1194). *)
Definition type_of_function (i : Z) : V fnty :=
  match r_type_index_of_function (e_res E) i with
  | Some t => func_type_at t
  | None => vfail "unknown function {function_index}: function index out of bounds"
  end.
(** [check_call_ty] (1201-1211). *)
Definition check_call_ty (f : fnty) : V unit := pops (fn_params f) ;; pushes (fn_results f).
(** [check_return] (1277-1284): [self.control[0]] is the last of the list. *)
Definition outermost_results : V (list val) :=
  let! c := vget vs_control in
  match rev c with [] => vpanic | fr :: _ => results (fr_block fr) end.
Definition check_return : V unit :=
  let! l := outermost_results in pops l ;; unreachable.
(** [.zip(..).all(..)]. *)
Fixpoint zip_all {A B} (f : A -> B -> bool) (l : list A) (m : list B) : bool :=
  match l, m with a :: l, b :: m => f a b && zip_all f l m | _, _ => true end.
(** [check_func_type_same_results] (1288-1314), [check_return_call_ty] (1214-1229). *)
Definition check_func_type_same_results (f : fnty) : V unit :=
  let! caller := outermost_results in
  vcheck ((List.length (fn_results f) =? List.length caller)%nat && zip_all (fun caller callee => sub callee caller) caller (fn_results f))
    "type mismatch: current function requires result type [{caller_rets}] but callee returns [{callee_rets}]".
Definition check_return_call_ty (f : fnty) : V unit :=
  check_func_type_same_results f ;; pops (fn_params f) ;; pushes (fn_results f) ;; check_return.
(** [check_call_ref_ty] (1238-1245), [check_call_indirect_ty] (1256-1273). *)
Definition check_call_ref_ty (i : Z) : V fnty :=
  let! h := check_heap_type (HC (UModule i)) in
  let! r := vunwrap (r_new true h) in
  pop_ref (Some r) ;; func_type_at i.
Definition check_call_indirect_ty (type_index table_index : Z) : V fnty :=
  let! tab := table_type_at table_index in
  vcheck (sub (VRef (tb_elem tab)) FUNCREF) "type mismatch: indirect calls must go through a table with type <= funcref" ;;
  pop (index_type (tb_64 tab)) ;; func_type_at type_index.
(** [check_cmp_op] ... [check_fbinary_op] (1317-1372). *)
Definition check_cmp_op (t : val) : V unit := pop t ;; pop t ;; push_operand VI32.
Definition check_fcmp_op (t : val) : V unit := check_floats_enabled ;; check_cmp_op t.
Definition check_unary_op (t : val) : V unit := pop t ;; push_operand t.
Definition check_funary_op (t : val) : V unit := check_floats_enabled ;; check_unary_op t.
Definition check_conversion_op (into from : val) : V unit := pop from ;; push_operand into.
Definition check_fconversion_op (into from : val) : V unit := check_floats_enabled ;; check_conversion_op into from.
Definition check_binary_op (t : val) : V unit := pop t ;; pop t ;; push_operand t.
Definition check_fbinary_op (t : val) : V unit := check_floats_enabled ;; check_binary_op t.
(** [check_atomic_load] ... [check_atomic_binary_memory_cmpxchg] (1375-1407). *)
Definition check_atomic_load (m : p_memarg) (t : val) : V unit := let! i := check_shared_memarg m in pop i ;; push_operand t.
Definition check_atomic_store (m : p_memarg) (t : val) : V unit := let! i := check_shared_memarg m in pop t ;; pop i.
Definition check_atomic_binary_memory_op (m : p_memarg) (t : val) : V unit :=
  let! i := check_shared_memarg m in pop t ;; pop i ;; push_operand t.
Definition check_atomic_binary_memory_cmpxchg (m : p_memarg) (t : val) : V unit :=
  let! i := check_shared_memarg m in pop t ;; pop t ;; pop i ;; push_operand t.
(** [check_cast_to_allowed] (1425-1440), [check_downcast] (1411-1423), [check_ref_test], [check_ref_cast] (1444-1454). *)
Definition check_cast_to_allowed (h : hp) : V unit :=
  match r_top_type (e_res E) h with
  | HA _ Cont => vfail "invalid cast: cannot cast to a continuation type"
  | _ => vret tt
  end.
Definition check_downcast (nullable : bool) (h : hp) : V rf :=
  let! h := check_heap_type h in
  let! sub_ty := vsome (r_new nullable h) "implementation limit: type index too large" in
  let top := r_top_type (e_res E) h in
  check_cast_to_allowed top ;;
  let! sup_ty := vunwrap (r_new true top) in
  pop_ref (Some sup_ty) ;; vret sub_ty.
Definition check_ref_test (nullable : bool) (h : heap_type) : V unit := check_downcast nullable (of_heap h) ;; push_operand VI32.
Definition check_ref_cast (nullable : bool) (h : heap_type) : V unit :=
  let! r := check_downcast nullable (of_heap h) in push_operand (VRef r).
(** [check_br_on_cast_type_hierarchy] (1457-1490). *)
Definition check_br_on_cast_type_hierarchy (from to : rf) : V unit :=
  if e_feat E f_custom_descriptors then
    vcheck (hp_eqb (r_top_type (e_res E) (rt_heap from)) (r_top_type (e_res E) (rt_heap to)))
      "type mismatch: {from_ref_type} and {to_ref_type} have different heap type hierarchies"
  else
    check_cast_to_allowed (rt_heap to) ;;
    vcheck (sub (VRef to) (VRef from)) "type mismatch: expected {from_ref_type}, found {to_ref_type}".
(** [check_descriptor] (1493-1511): the number of the descriptor's [CoreTypeId]. *)
Definition check_descriptor (h : hp) : V Z :=
  match h with
  | HC i | HX i =>
    let! i := match i with UModule i => vret i | _ => vpanic end in
    let! t := sub_type_at i in
    match c_descriptor (s_comp t) with
    | Some d => core_type_id d
    | None => vfail "cast target must have descriptor"
    end
  | _ => vfail "unexpected heap type"
  end.
(** [check_maybe_exact_descriptor_ref] (1513-1539). *)
Definition check_maybe_exact_descriptor_ref (h : hp) : V bool :=
  let! d := check_descriptor h in
  let! tb := pop_concrete_or_exact_ref true d in
  match h with
  | HX _ =>
    let! dh := check_heap_type (HX (UModule d)) in
    let! r := vunwrap (r_new true dh) in
    match fst tb with
    | Known actual => vcheck (sub actual (VRef r)) "type mismatch: expected descriptor of exact type {descriptor_ty} found {actual}"
    | _ => vret tt
    end ;; vret true
  | _ => vret false
  end.
(** [check_ref_cast_desc_eq] (1543-1567). *)
Definition check_ref_cast_desc_eq (nullable : bool) (h : heap_type) : V unit :=
  let! is_exact := check_maybe_exact_descriptor_ref (of_heap h) in
  check_downcast nullable (of_heap h) ;;
  let! h := check_heap_type (of_heap h) in
  let! idx := match h with
              | HC i | HX i => if packs i then vret i else vfail "implementation limit: type index too large"
              | _ => vpanic
              end in
  push_operand (VRef (mkR nullable (if is_exact : bool then HX idx else HC idx))).
(** [check_atomic_global_rmw_ty] (1571-1587). *)
Definition check_atomic_global_rmw_ty (i : Z) : V val :=
  let! g := global_type_at i in
  vcheck (gl_mut g) "global is immutable: cannot modify it with `global.atomic.rmw.*`" ;;
  vcheck (val_eqb (gl_ty g) VI32 || val_eqb (gl_ty g) VI64) "invalid type: `global.atomic.rmw.*` only allows `i32` and `i64`" ;;
  vret (gl_ty g).
(** [check_struct_atomic_rmw], [check_array_atomic_rmw] (1591-1631). *)
Definition atomic_rmw_ty (t : sty uidx) (msg : string) : V val :=
  match t with SVal VI32 => vret VI32 | SVal VI64 => vret VI64 | _ => vfail msg end.
Definition check_struct_atomic_rmw (op : string) (i f : Z) : V unit :=
  let! fd := mutable_struct_field_at i f in
  let! t := atomic_rmw_ty (fd_elem fd) "invalid type: `struct.atomic.rmw.{}` only allows `i32` and `i64`" in
  pop t ;; pop_concrete_ref true i ;; push_operand t.
Definition check_array_atomic_rmw (op : string) (i : Z) : V unit :=
  let! fd := mutable_array_type_at i in
  let! t := atomic_rmw_ty (fd_elem fd) "invalid type: `array.atomic.rmw.{}` only allows `i32` and `i64`" in
  pop t ;; pop VI32 ;; pop_concrete_ref true i ;; push_operand t.
(** [is_func_subtype] (1941-1958). *)
Definition is_func_subtype (p1 r1 p2 r2 : list val) : bool :=
  (List.length p1 =? List.length p2)%nat && zip_all (fun t1 t2 => sub t2 t1) p1 p2
  && (List.length r1 =? List.length r2)%nat && zip_all (fun r1 r2 => sub r1 r2) r1 r2.
(** [next_back] of an iterator: the last item and the others. *)
Definition next_back {A} (l : list A) : option (list A * A) := match rev l with [] => None | x :: r => Some (rev r, x) end.
Definition cont_type_of_ref (r : rf) : V uidx :=
  let! id := match rt_heap r with HC u | HX u => core_type_id u | HA _ _ => vpanic end in
  let! t := sub_type_at_id id in
  match c_inner (s_comp t) with ICont c => vret c | _ => vfail "non-continuation type" end.
(** [check_resume_table] (1847-1938). *)
Definition check_handle (old : fnty) (h : handle) : V unit :=
  match h with
  | HOnLabel tag label =>
    let! tag_ty := tag_at tag in
    let! j := jump label in
    let! tys := label_types (fst j) (snd j) in
    match next_back tys with
    | None => vfail "type mismatch: instruction requires continuation reference type but label has none"
    | Some (tys, VRef ct) =>
      vcheck (rf_concrete ct) "type mismatch: {}" ;;
      vcheck ((List.length (fn_params tag_ty) =? List.length tys)%nat && zip_all sub (fn_params tag_ty) tys)
        "type mismatch between tag type and label type" ;;
      let! c := cont_type_of_ref ct in
      let! new := func_type_of_cont_type c in
      vcheck (is_func_subtype (fn_results tag_ty) (fn_results old) (fn_params new) (fn_results new)) "type mismatch in continuation type"
    | Some _ => vfail "type mismatch: {}"
    end
  | HOnSwitch tag =>
    let! t := tag_at tag in
    vcheck (is_func_subtype (fn_params t) (fn_results t) [] (fn_results old)
            && is_func_subtype [] (fn_results old) (fn_params t) (fn_results t))
      "type mismatch: switch tag does not match continuation"
  end.
Definition check_resume_table (table : list handle) (type_index : Z) : V fnty :=
  let! c := cont_type_at type_index in
  let! old := func_type_of_cont_type c in
  vall (check_handle old) table ;; vret old.
(** [check_binop128], [check_i64_mul_wide] (1960-1977). *)
Definition check_binop128 : V unit := pop VI64 ;; pop VI64 ;; pop VI64 ;; pop VI64 ;; push_operand VI64 ;; push_operand VI64.
Definition check_i64_mul_wide : V unit := pop VI64 ;; pop VI64 ;; push_operand VI64 ;; push_operand VI64.
(** simd.rs:9-77. *)
Definition check_simd_lane_index (i max : Z) : V unit := vcheck (i <? max) "SIMD index out of bounds".
Definition check_v128_splat (t : val) : V unit := pop t ;; push_operand VV128.
Definition check_v128_binary_op : V unit := pop VV128 ;; pop VV128 ;; push_operand VV128.
Definition check_v128_fbinary_op : V unit := check_floats_enabled ;; check_v128_binary_op.
Definition check_v128_unary_op : V unit := pop VV128 ;; push_operand VV128.
Definition check_v128_funary_op : V unit := check_floats_enabled ;; check_v128_unary_op.
Definition check_v128_ternary_op : V unit := pop VV128 ;; pop VV128 ;; pop VV128 ;; push_operand VV128.
Definition check_v128_bitmask_op : V unit := pop VV128 ;; push_operand VI32.
Definition check_v128_shift_op : V unit := pop VI32 ;; pop VV128 ;; push_operand VV128.
Definition check_v128_load_op (m : p_memarg) : V unit := let! i := check_memarg m in pop i ;; push_operand VV128.

(** * Control (2093-2330) *)
Definition visit_unreachable : V unit := unreachable.
Definition visit_block_kind (k : frame_kind) (b : p_block) : V unit :=
  let! b := check_block_type b in
  let! ps := params b in
  pops ps ;; push_ctrl k b.
Definition visit_block (b : p_block) : V unit := visit_block_kind FBlock b.
Definition visit_loop (b : p_block) : V unit := visit_block_kind FLoop b.
Definition visit_try (b : p_block) : V unit := visit_block_kind FLegacyTry b.
Definition visit_if (b : p_block) : V unit :=
  let! b := check_block_type b in
  pop VI32 ;;
  let! ps := params b in
  pops ps ;; push_ctrl FIf b.
Definition visit_else : V unit := let! fr := pop_ctrl in push_ctrl FElse (fr_block fr).
(** [for (expected, actual) in types.zip(params)]. *)
Fixpoint match_operands (expected actual : list val) : V unit :=
  match expected, actual with
  | e :: expected, a :: actual => match_operand a e ;; match_operands expected actual
  | _, _ => vret tt
  end.
Definition EXN : val := VRef (abs false false Exn).
Definition check_catch (c : catch) : V unit :=
  match c with
  | COne tag label =>
    let! tag := exception_tag_at tag in
    let! j := jump label in
    let! types := label_types (fst j) (snd j) in
    vcheck (List.length (fn_params tag) =? List.length types)%nat "type mismatch: catch label must have same number of types as tag" ;;
    match_operands types (fn_params tag)
  | COneRef tag label =>
    let! tag := exception_tag_at tag in
    let! j := jump label in
    let! types := label_types (fst j) (snd j) in
    vcheck (List.length (fn_params tag) + 1 =? List.length types)%nat "type mismatch: catch_ref label must have one more type than tag types" ;;
    match_operands types (fn_params tag ++ [EXN])
  | CAll label =>
    let! j := jump label in
    let! types := label_types (fst j) (snd j) in
    vcheck (List.length types =? 0)%nat "type mismatch: catch_all label must have no result types"
  | CAllRef label =>
    let! j := jump label in
    let! types := label_types (fst j) (snd j) in
    match types with
    | [t] => vcheck (sub EXN t) "type mismatch: catch_all_ref label must a subtype of (ref exn)"
    | _ => vfail "type mismatch: catch_all_ref label must have exactly one result type"
    end
  end.
Definition visit_try_table (t : p_try_table) : V unit :=
  let! b := check_block_type (pt_ty t) in
  let! ps := params b in
  pops ps ;; vall check_catch (pt_catches t) ;; push_ctrl FTryTable b.
Definition visit_throw (i : Z) : V unit := let! f := exception_tag_at i in pops (fn_params f) ;; unreachable.
Definition visit_throw_ref : V unit := pop EXNREF ;; unreachable.
Definition is_if (k : frame_kind) : bool := match k with FIf => true | _ => false end.
Definition visit_end : V unit :=
  let! fr := pop_ctrl in
  let! fr := if is_if (fr_kind fr) then push_ctrl FElse (fr_block fr) ;; pop_ctrl else vret fr in
  let! ts := results (fr_block fr) in
  pushes ts ;;
  let! c := vget vs_control in
  match c with [] => if e_at E =? 0 then vpanic else vret tt | _ => vret tt end.
Definition visit_br (d : Z) : V unit :=
  let! j := jump d in
  let! ts := label_types (fst j) (snd j) in
  pops ts ;; unreachable.
Definition visit_br_if (d : Z) : V unit :=
  pop VI32 ;;
  let! j := jump d in
  let! ts := label_types (fst j) (snd j) in
  pop_push_label_types ts.
(** [BrTable::targets] (readers/core/operators.rs, binary_reader.rs:1980-2004): the targets read before an error, and the error. *)
Fixpoint br_prefix (n : nat) (r : reader) : list Z * option error :=
  match n with
  | O => ([], if eof r then None else Some (err_new "trailing data in br_table" (r_pos r)))
  | S n => match read_var_u32 r with
           | Ok (x, r) => let '(l, e) := br_prefix n r in (x :: l, e)
           | Err e => ([], Some e)
           end
  end.
Definition targets (t : p_br_table) : list Z * option error :=
  br_prefix (Z.to_nat (pb_cnt t)) (new_reader all_features (pb_bytes t) 0).
Definition visit_br_table (t : p_br_table) : V unit :=
  pop VI32 ;;
  let! j := jump (pb_default t) in
  let! default_types := label_types (fst j) (snd j) in
  let '(l, e) := targets t in
  vall (fun d =>
    let! j := jump d in
    let! tys := label_types (fst j) (snd j) in
    vcheck (List.length tys =? List.length default_types)%nat "type mismatch: br_table target labels have different number of types" ;;
    match_stack_operands tys) l ;;
  vlift (match e with Some e => Err e | None => Ok tt end) ;;
  pops default_types ;; unreachable.
(** [visit_return], [visit_call] ... are generated. *)

(** * Parametric and variable instructions (2323-2560) *)
Definition visit_select : V unit :=
  pop VI32 ;;
  let! t1 := pop_operand None in
  let! t2 := pop_operand None in
  let! t := match t1, t2 with
            | UnknownRef _, _ | _, UnknownRef _ | Known (VRef _), _ | _, Known (VRef _) =>
              vfail "type mismatch: select only takes integral types"
            | Bottom, t | t, Bottom => vret t
            | Known a, Known b =>
              vcheck (val_eqb a b) "type mismatch: select operands have different types" ;; vret (Known a)
            end in
  push_maybe t.
Definition visit_typed_select (t : p_val) : V unit :=
  let! t := vunwrap (of_val t) in
  let! t := check_value_type t in
  pop VI32 ;; pop t ;; pop t ;; push_operand t.
Definition visit_typed_select_multi (l : list p_val) : V unit := vfail "invalid result arity".
Definition visit_local_get (i : Z) : V unit :=
  let! t := local i in
  let! u := local_is_uninit i in
  vcheck (negb u) "uninitialized local: {}" ;;
  push_operand t.
Definition visit_local_set (i : Z) : V unit := let! t := local i in pop t ;; local_set_init i.
Definition visit_local_tee (i : Z) : V unit := let! t := local i in pop t ;; local_set_init i ;; push_operand t.
Definition ANYREF (shared : bool) : val := VRef (abs true shared Any).
Definition EQREF (shared : bool) : val := VRef (abs true shared Eq).
Definition i32_i64_or_sub (t sup : val) : bool := val_eqb t VI32 || val_eqb t VI64 || sub t sup.
Definition visit_global_get (i : Z) : V unit := let! g := global_type_at i in push_operand (gl_ty g).
Definition visit_global_atomic_get (o : ordering) (i : Z) : V unit :=
  visit_global_get i ;;
  let! g := global_type_at i in
  vcheck (i32_i64_or_sub (gl_ty g) (ANYREF false)) "invalid type: `global.atomic.get` only allows `i32`, `i64` and subtypes of `anyref`".
Definition visit_global_set (i : Z) : V unit :=
  let! g := global_type_at i in
  vcheck (gl_mut g) "global is immutable: cannot modify it with `global.set`" ;;
  pop (gl_ty g).
Definition visit_global_atomic_set (o : ordering) (i : Z) : V unit :=
  visit_global_set i ;;
  let! g := global_type_at i in
  vcheck (i32_i64_or_sub (gl_ty g) (ANYREF false)) "invalid type: `global.atomic.set` only allows `i32`, `i64` and subtypes of `anyref`".
Definition visit_global_atomic_rmw_xchg (o : ordering) (i : Z) : V unit :=
  let! g := global_type_at i in
  vcheck (gl_mut g) "global is immutable: cannot modify it with `global.atomic.rmw.xchg`" ;;
  vcheck (i32_i64_or_sub (gl_ty g) (ANYREF false)) "invalid type: `global.atomic.rmw.xchg` only allows `i32`, `i64` and subtypes of `anyref`" ;;
  check_unary_op (gl_ty g).
Definition visit_global_atomic_rmw_cmpxchg (o : ordering) (i : Z) : V unit :=
  let! g := global_type_at i in
  vcheck (gl_mut g) "global is immutable: cannot modify it with `global.atomic.rmw.cmpxchg`" ;;
  vcheck (i32_i64_or_sub (gl_ty g) (EQREF false)) "invalid type: `global.atomic.rmw.cmpxchg` only allows `i32`, `i64` and subtypes of `eqref`" ;;
  check_binary_op (gl_ty g).

(** * References (3308-3405) *)
Definition visit_ref_null (h : heap_type) : V unit :=
  match r_new true (of_heap h) with Some r => feature_check_ref_type r | None => vret tt end ;;
  let! h := check_heap_type (of_heap h) in
  let! r := vunwrap (r_new true h) in
  push_operand (VRef r).
Definition visit_ref_as_non_null : V unit := let! t := pop_ref None in push_maybe (maybe_val (maybe_non_null t)).
Definition visit_br_on_null (d : Z) : V unit :=
  let! t := pop_ref None in
  let! j := jump d in
  let! ts := label_types (fst j) (snd j) in
  pop_push_label_types ts ;; push_maybe (maybe_val (maybe_non_null t)).
Definition visit_br_on_non_null (d : Z) : V unit :=
  let! j := jump d in
  let! ts := label_types (fst j) (snd j) in
  match next_back ts with
  | None => vfail "type mismatch: br_on_non_null target has no label types"
  | Some (ts, VRef t) => pop_ref (Some (rf_nullable t)) ;; pop_push_label_types ts
  | Some _ => vfail "type mismatch: br_on_non_null target does not end with heap type"
  end.
Definition visit_ref_is_null : V unit := pop_ref None ;; push_operand VI32.
Definition visit_ref_func (i : Z) : V unit :=
  let! id := vsome (r_type_id_of_function (e_res E) i) "unknown function {}: function index out of bounds" in
  vcheck (r_is_function_referenced (e_res E) i) "undeclared function reference" ;;
  let! r := vsome (r_new false (if e_feat E f_custom_descriptors && r_has_function_exact_type (e_res E) i then HX (UId id) else HC (UId id)))
              "implementation limit: type index too large" in
  push_operand (VRef r).
Definition visit_ref_eq : V unit :=
  let! a := pop_maybe_shared_ref Eq in
  let! b := pop_maybe_shared_ref Eq in
  match is_maybe_shared a, is_maybe_shared b with
  | Some a, Some b => vcheck (Bool.eqb a b) "type mismatch: expected `ref.eq` types to match `shared`-ness"
  | _, _ => vret tt
  end ;;
  push_operand VI32.

(** * Memories and tables (3421-3594) *)
Definition visit_memory_copy (dst src : Z) : V unit :=
  require f_bulk_memory_opt "bulk memory support is not enabled" ;;
  let! dst_ty := check_memory_index dst in
  let! src_ty := check_memory_index src in
  pop (match src_ty with VI32 => VI32 | _ => dst_ty end) ;; pop src_ty ;; pop dst_ty.
Definition visit_memory_fill (m : Z) : V unit :=
  require f_bulk_memory_opt "bulk memory support is not enabled" ;;
  let! t := check_memory_index m in
  pop t ;; pop VI32 ;; pop t.
Definition tb_index (t : tblty) : val := index_type (tb_64 t).
Definition visit_table_init (segment table : Z) : V unit :=
  let! t := table_type_at table in
  let! s := element_type_at segment in
  vcheck (sub (VRef s) (VRef (tb_elem t))) "type mismatch" ;;
  pop VI32 ;; pop VI32 ;; pop (tb_index t).
Definition visit_elem_drop (segment : Z) : V unit := element_type_at segment ;; vret tt.
Definition visit_table_copy (dst_table src_table : Z) : V unit :=
  let! src := table_type_at src_table in
  let! dst := table_type_at dst_table in
  vcheck (sub (VRef (tb_elem src)) (VRef (tb_elem dst))) "type mismatch" ;;
  pop (match tb_index src with VI32 => VI32 | _ => tb_index dst end) ;; pop (tb_index src) ;; pop (tb_index dst).
Definition visit_table_get (i : Z) : V unit := let! t := table_type_at i in pop (tb_index t) ;; push_operand (VRef (tb_elem t)).
Definition visit_table_atomic_get (o : ordering) (i : Z) : V unit :=
  visit_table_get i ;;
  let! t := table_type_at i in
  vcheck (sub (VRef (tb_elem t)) (ANYREF true)) "invalid type: `table.atomic.get` only allows subtypes of `anyref`".
Definition visit_table_set (i : Z) : V unit := let! t := table_type_at i in pop (VRef (tb_elem t)) ;; pop (tb_index t).
Definition visit_table_atomic_set (o : ordering) (i : Z) : V unit :=
  visit_table_set i ;;
  let! t := table_type_at i in
  vcheck (sub (VRef (tb_elem t)) (ANYREF true)) "invalid type: `table.atomic.set` only allows subtypes of `anyref`".
Definition visit_table_grow (i : Z) : V unit :=
  let! t := table_type_at i in pop (tb_index t) ;; pop (VRef (tb_elem t)) ;; push_operand (tb_index t).
Definition visit_table_size (i : Z) : V unit := let! t := table_type_at i in push_operand (tb_index t).
Definition visit_table_fill (i : Z) : V unit :=
  let! t := table_type_at i in pop (tb_index t) ;; pop (VRef (tb_elem t)) ;; pop (tb_index t).
Definition visit_table_atomic_rmw_xchg (o : ordering) (i : Z) : V unit :=
  let! t := table_type_at i in
  vcheck (sub (VRef (tb_elem t)) (ANYREF true)) "invalid type: `table.atomic.rmw.xchg` only allows subtypes of `anyref`" ;;
  pop (VRef (tb_elem t)) ;; pop (tb_index t) ;; push_operand (VRef (tb_elem t)).
Definition visit_table_atomic_rmw_cmpxchg (o : ordering) (i : Z) : V unit :=
  let! t := table_type_at i in
  vcheck (sub (VRef (tb_elem t)) (EQREF true)) "invalid type: `table.atomic.rmw.cmpxchg` only allows subtypes of `eqref`" ;;
  pop (VRef (tb_elem t)) ;; pop (VRef (tb_elem t)) ;; pop (tb_index t) ;; push_operand (VRef (tb_elem t)).

(** * Structures (3595-3846) *)
Definition unpacked (f : fty uidx) : val := st_unpack (fd_elem f).
Definition no_descriptor (i : Z) (msg : string) : V unit :=
  let! t := sub_type_at i in match c_descriptor (s_comp t) with Some _ => vfail msg | None => vret tt end.
Definition pop_descriptor (i : Z) (msg : string) : V unit :=
  let! t := sub_type_at i in
  match c_descriptor (s_comp t) with Some d => pop (VRef (mkR true (HX d))) | None => vfail msg end.
Definition visit_struct_new (i : Z) : V unit :=
  no_descriptor i "type with descriptor requires descriptor allocation: `struct.new` with type {struct_type_index}" ;;
  let! fs := struct_type_at i in
  pops (map unpacked fs) ;; push_exact_ref_if_available false i.
Definition all_defaultable (fs : list (fty uidx)) : V unit :=
  vall (fun f => vcheck (is_defaultable (unpacked f)) "invalid `struct.new_default`: {val_ty} field is not defaultable") fs.
Definition visit_struct_new_default (i : Z) : V unit :=
  no_descriptor i "type with descriptor requires descriptor allocation: `struct.new_default` with type {type_index}" ;;
  let! fs := struct_type_at i in
  all_defaultable fs ;; push_exact_ref_if_available false i.
Definition visit_struct_new_desc (i : Z) : V unit :=
  pop_descriptor i "invalid `struct.new_desc`: type {struct_type_index} is not described" ;;
  let! fs := struct_type_at i in
  pops (map unpacked fs) ;; push_exact_ref_if_available false i.
Definition visit_struct_new_default_desc (i : Z) : V unit :=
  pop_descriptor i "invalid `struct.new_default_desc`: type {type_index} is not described" ;;
  let! fs := struct_type_at i in
  all_defaultable fs ;; push_exact_ref_if_available false i.
Definition visit_struct_get (i f : Z) : V unit :=
  let! fd := struct_field_at i f in
  vcheck (negb (is_packed (fd_elem fd))) "can only use struct `get` with non-packed storage types" ;;
  pop_concrete_ref true i ;; push_operand (unpacked fd).
(** [is_valid_type]. *)
Definition atomic_ok (packed : bool) (sup : val) (t : sty uidx) : bool :=
  match t with SVal VI32 | SVal VI64 => true | SVal v => sub v sup | _ => packed end.
Definition visit_struct_atomic_get (o : ordering) (i f : Z) : V unit :=
  visit_struct_get i f ;;
  let! fd := struct_field_at i f in
  vcheck (atomic_ok false (ANYREF true) (fd_elem fd)) "invalid type: `struct.atomic.get` only allows `i32`, `i64` and subtypes of `anyref`".
Definition visit_struct_get_s (i f : Z) : V unit :=
  let! fd := struct_field_at i f in
  vcheck (is_packed (fd_elem fd)) "cannot use struct.get_s with non-packed storage types" ;;
  pop_concrete_ref true i ;; push_operand (unpacked fd).
Definition visit_struct_atomic_get_s (o : ordering) (i f : Z) : V unit := visit_struct_get_s i f.
Definition visit_struct_get_u (i f : Z) : V unit :=
  let! fd := struct_field_at i f in
  vcheck (is_packed (fd_elem fd)) "cannot use struct.get_u with non-packed storage types" ;;
  pop_concrete_ref true i ;; push_operand (unpacked fd).
Definition visit_struct_atomic_get_u (o : ordering) (i f : Z) : V unit := visit_struct_get_u i f.
Definition visit_struct_set (i f : Z) : V unit :=
  let! fd := mutable_struct_field_at i f in pop (unpacked fd) ;; pop_concrete_ref true i ;; vret tt.
Definition visit_struct_atomic_set (o : ordering) (i f : Z) : V unit :=
  visit_struct_set i f ;;
  let! fd := struct_field_at i f in
  vcheck (atomic_ok true (ANYREF true) (fd_elem fd)) "invalid type: `struct.atomic.set` only allows `i8`, `i16`, `i32`, `i64` and subtypes of `anyref`".
Definition visit_struct_atomic_rmw_xchg (o : ordering) (i f : Z) : V unit :=
  let! fd := mutable_struct_field_at i f in
  vcheck (atomic_ok false (ANYREF true) (fd_elem fd)) "invalid type: `struct.atomic.rmw.xchg` only allows `i32`, `i64` and subtypes of `anyref`" ;;
  pop (unpacked fd) ;; pop_concrete_ref true i ;; push_operand (unpacked fd).
Definition visit_struct_atomic_rmw_cmpxchg (o : ordering) (i f : Z) : V unit :=
  let! fd := mutable_struct_field_at i f in
  vcheck (atomic_ok false (EQREF true) (fd_elem fd)) "invalid type: `struct.atomic.rmw.cmpxchg` only allows `i32`, `i64` and subtypes of `eqref`" ;;
  pop (unpacked fd) ;; pop (unpacked fd) ;; pop_concrete_ref true i ;; push_operand (unpacked fd).

(** * Arrays (3893-4191) *)
Definition visit_array_new (i : Z) : V unit :=
  let! fd := array_type_at i in pop VI32 ;; pop (unpacked fd) ;; push_exact_ref_if_available false i.
Definition visit_array_new_default (i : Z) : V unit :=
  let! fd := array_type_at i in
  vcheck (is_defaultable (unpacked fd)) "invalid `array.new_default`: {val_ty} field is not defaultable" ;;
  pop VI32 ;; push_exact_ref_if_available false i.
Definition visit_array_new_fixed (i n : Z) : V unit :=
  let! fd := array_type_at i in
  vall pop (repeat (unpacked fd) (Z.to_nat n)) ;; push_exact_ref_if_available false i.
Definition not_ref (v : val) (msg : string) : V unit := match v with VRef _ => vfail msg | _ => vret tt end.
Definition a_ref (v : val) (msg : string) : V rf := match v with VRef r => vret r | _ => vfail msg end.
Definition visit_array_new_data (i d : Z) : V unit :=
  let! fd := array_type_at i in
  not_ref (unpacked fd) "type mismatch: array.new_data can only create arrays with numeric and vector elements" ;;
  check_data_segment d ;; pop VI32 ;; pop VI32 ;; push_exact_ref_if_available false i.
Definition visit_array_new_elem (i e : Z) : V unit :=
  let! fd := array_type_at i in
  let! r := a_ref (unpacked fd) "type mismatch: array.new_elem can only create arrays with reference elements" in
  let! er := element_type_at e in
  vcheck (sub (VRef er) (VRef r)) "invalid array.new_elem instruction: element segment {elem_index} type mismatch: expected {array_ref_ty}, found {elem_ref_ty}" ;;
  pop VI32 ;; pop VI32 ;; push_exact_ref_if_available false i.
Definition visit_array_get (i : Z) : V unit :=
  let! fd := array_type_at i in
  vcheck (negb (is_packed (fd_elem fd))) "cannot use array.get with packed storage types" ;;
  pop VI32 ;; pop_concrete_ref true i ;; push_operand (unpacked fd).
Definition visit_array_atomic_get (o : ordering) (i : Z) : V unit :=
  visit_array_get i ;;
  let! fd := array_type_at i in
  vcheck (atomic_ok false (ANYREF true) (fd_elem fd)) "invalid type: `array.atomic.get` only allows `i32`, `i64` and subtypes of `anyref`".
Definition visit_array_get_s (i : Z) : V unit :=
  let! fd := array_type_at i in
  vcheck (is_packed (fd_elem fd)) "cannot use array.get_s with non-packed storage types" ;;
  pop VI32 ;; pop_concrete_ref true i ;; push_operand (unpacked fd).
Definition visit_array_atomic_get_s (o : ordering) (i : Z) : V unit := visit_array_get_s i.
Definition visit_array_get_u (i : Z) : V unit :=
  let! fd := array_type_at i in
  vcheck (is_packed (fd_elem fd)) "cannot use array.get_u with non-packed storage types" ;;
  pop VI32 ;; pop_concrete_ref true i ;; push_operand (unpacked fd).
Definition visit_array_atomic_get_u (o : ordering) (i : Z) : V unit := visit_array_get_u i.
Definition visit_array_set (i : Z) : V unit :=
  let! fd := mutable_array_type_at i in pop (unpacked fd) ;; pop VI32 ;; pop_concrete_ref true i ;; vret tt.
Definition visit_array_atomic_set (o : ordering) (i : Z) : V unit :=
  visit_array_set i ;;
  let! fd := array_type_at i in
  vcheck (atomic_ok true (ANYREF true) (fd_elem fd)) "invalid type: `array.atomic.set` only allows `i8`, `i16`, `i32`, `i64` and subtypes of `anyref`".
Definition visit_array_fill (i : Z) : V unit :=
  let! fd := mutable_array_type_at i in pop VI32 ;; pop (unpacked fd) ;; pop VI32 ;; pop_concrete_ref true i ;; vret tt.
Definition visit_array_copy (i_dst i_src : Z) : V unit :=
  let! dst := mutable_array_type_at i_dst in
  let! src := array_type_at i_src in
  match fd_elem dst, fd_elem src with
  | SI8, SI8 => vret tt
  | SI8, _ => vfail "array types do not match: expected i8, found {ty}"
  | SI16, SI16 => vret tt
  | SI16, _ => vfail "array types do not match: expected i16, found {ty}"
  | SVal dst, SVal src => vcheck (sub src dst) "array types do not match: expected {dst}, found {src}"
  | SVal _, _ => vfail "array types do not match: expected {dst}, found {src}"
  end ;;
  pop VI32 ;; pop VI32 ;; pop_concrete_ref true i_src ;; pop VI32 ;; pop_concrete_ref true i_dst ;; vret tt.
Definition visit_array_init_data (i d : Z) : V unit :=
  let! fd := mutable_array_type_at i in
  not_ref (unpacked fd) "invalid array.init_data: array type is not numeric or vector" ;;
  check_data_segment d ;; pop VI32 ;; pop VI32 ;; pop VI32 ;; pop_concrete_ref true i ;; vret tt.
Definition visit_array_init_elem (i e : Z) : V unit :=
  let! fd := mutable_array_type_at i in
  let! r := a_ref (unpacked fd) "type mismatch: array.init_elem can only create arrays with reference elements" in
  let! er := element_type_at e in
  vcheck (sub (VRef er) (VRef r)) "invalid array.init_elem instruction: element segment {elem_index} type mismatch: expected {array_ref_ty}, found {elem_ref_ty}" ;;
  pop VI32 ;; pop VI32 ;; pop VI32 ;; pop_concrete_ref true i ;; vret tt.
Definition visit_array_atomic_rmw_xchg (o : ordering) (i : Z) : V unit :=
  let! fd := mutable_array_type_at i in
  vcheck (atomic_ok false (ANYREF true) (fd_elem fd)) "invalid type: `array.atomic.rmw.xchg` only allows `i32`, `i64` and subtypes of `anyref`" ;;
  pop (unpacked fd) ;; pop VI32 ;; pop_concrete_ref true i ;; push_operand (unpacked fd).
Definition visit_array_atomic_rmw_cmpxchg (o : ordering) (i : Z) : V unit :=
  let! fd := mutable_array_type_at i in
  vcheck (atomic_ok false (EQREF true) (fd_elem fd)) "invalid type: `array.atomic.rmw.cmpxchg` only allows `i32`, `i64` and subtypes of `eqref`" ;;
  pop (unpacked fd) ;; pop (unpacked fd) ;; pop VI32 ;; pop_concrete_ref true i ;; push_operand (unpacked fd).

(** * Conversions and casts (4192-4356) *)
Definition convert_to (t : aht) (m : maybe rf) : maybe val :=
  match m with
  | Bottom | UnknownRef _ => UnknownRef (Some t)
  | Known r => Known (VRef (abs (rt_null r) (r_is_shared (e_res E) r) t))
  end.
Definition visit_any_convert_extern : V unit := let! m := pop_maybe_shared_ref Extern in push_maybe (convert_to Any m).
Definition visit_extern_convert_any : V unit := let! m := pop_maybe_shared_ref Any in push_maybe (convert_to Extern m).
(** [visit_br_on_cast], [visit_br_on_cast_desc_eq]: [descr] is whether the descriptor is popped too. *)
Definition br_on_cast (descr : bool) (d : Z) (from to : Z) : V unit :=
  let! from := vunwrap (of_ref from) in
  let! to := vunwrap (of_ref to) in
  let described := rt_heap to in
  let! from := check_ref_type from in
  let! to := check_ref_type to in
  check_br_on_cast_type_hierarchy from to ;;
  (if descr then check_maybe_exact_descriptor_ref described ;; vret tt else vret tt) ;;
  let! j := jump d in
  let! ts := label_types (fst j) (snd j) in
  match next_back ts with
  | Some (ts, label_ty) =>
    vcheck (sub (VRef to) label_ty) "type mismatch: casting to type {to_ref_type}, but it does not match label result type {label_ty}" ;;
    pop (VRef from) ;;
    pop_push_label_types ts ;; push_operand (VRef (rf_difference from to))
  | None => vfail "type mismatch: br_on_cast to label with empty types, must have a reference type"
  end.
Definition br_on_cast_fail (descr : bool) (d : Z) (from to : Z) : V unit :=
  let! from := vunwrap (of_ref from) in
  let! to := vunwrap (of_ref to) in
  let described := rt_heap to in
  let! from := check_ref_type from in
  let! to := check_ref_type to in
  check_br_on_cast_type_hierarchy from to ;;
  (if descr then check_maybe_exact_descriptor_ref described ;; vret tt else vret tt) ;;
  let! j := jump d in
  let! ts := label_types (fst j) (snd j) in
  match next_back ts with
  | Some (ts, label_ty) =>
    vcheck (sub (VRef (rf_difference from to)) label_ty) "type mismatch: expected label result type {label_ty}, found {diff_ty}" ;;
    pop (VRef from) ;;
    pop_push_label_types ts ;; push_operand (VRef to)
  | None => vfail "type mismatch: expected a reference type, found nothing"
  end.
Definition visit_br_on_cast := br_on_cast false.
Definition visit_br_on_cast_fail := br_on_cast_fail false.
Definition visit_br_on_cast_desc_eq := br_on_cast true.
Definition visit_br_on_cast_desc_eq_fail := br_on_cast_fail true.
Definition visit_ref_i31 : V unit := pop VI32 ;; push_operand (VRef (abs false false I31)).
Definition visit_ref_i31_shared : V unit := pop VI32 ;; push_operand (VRef (abs false true I31)).

(** * Legacy exceptions (4357-4413) *)
Definition visit_catch (i : Z) : V unit :=
  let! fr := pop_ctrl in
  push_bare_ctrl FLegacyCatch (fr_block fr) ;;
  let! f := exception_tag_at i in
  pushes (fn_params f).
Definition visit_rethrow (d : Z) : V unit :=
  let! j := jump d in
  match snd j with
  | FLegacyCatch | FLegacyCatchAll => unreachable
  | _ => vfail "invalid rethrow label: target was not a `catch` block"
  end.
Definition visit_delegate (d : Z) : V unit :=
  let! fr := pop_ctrl in
  jump d ;;
  let! ts := results (fr_block fr) in
  pushes ts.
Definition visit_catch_all : V unit := let! fr := pop_ctrl in push_bare_ctrl FLegacyCatchAll (fr_block fr).

(** * Stack switching (4414-4559) *)
Definition visit_cont_new (i : Z) : V unit :=
  let! c := cont_type_at i in
  pop_ref (Some (mkR true (HC c))) ;; push_concrete_ref false i.
Definition visit_cont_bind (argument_index result_index : Z) : V unit :=
  let! arg_cont := cont_type_at argument_index in
  let! arg_func := func_type_of_cont_type arg_cont in
  let! res_cont := cont_type_at result_index in
  let! res_func := func_type_of_cont_type res_cont in
  vcheck (List.length (fn_params res_func) <=? List.length (fn_params arg_func))%nat "type mismatch in continuation arguments" ;;
  let argcnt := (List.length (fn_params arg_func) - List.length (fn_params res_func))%nat in
  vcheck (is_func_subtype (skipn argcnt (fn_params arg_func)) (fn_results arg_func) (fn_params res_func) (fn_results res_func))
    "type mismatch in continuation types" ;;
  pop_concrete_ref true argument_index ;;
  pops (firstn argcnt (fn_params arg_func)) ;;
  push_concrete_ref false result_index.
Definition visit_suspend (i : Z) : V unit := let! f := tag_at i in pops (fn_params f) ;; pushes (fn_results f).
Definition visit_resume (i : Z) (table : list handle) : V unit :=
  let! f := check_resume_table table i in
  pop_concrete_ref true i ;; pops (fn_params f) ;; pushes (fn_results f).
Definition visit_resume_throw (i tag_index : Z) (table : list handle) : V unit :=
  let! f := check_resume_table table i in
  let! tag_ty := exception_tag_at tag_index in
  pop_concrete_ref true i ;; pops (fn_params tag_ty) ;; pushes (fn_results f).
Definition visit_resume_throw_ref (i : Z) (table : list handle) : V unit :=
  let! f := check_resume_table table i in
  pop_concrete_ref true i ;; pop EXNREF ;; pushes (fn_results f).
Definition visit_switch (i tag_index : Z) : V unit :=
  let! c := cont_type_at i in
  let! func := func_type_of_cont_type c in
  let! tag_ty := tag_at tag_index in
  vcheck (List.length (fn_params tag_ty) =? 0)%nat "type mismatch: non-empty tag parameter type" ;;
  match next_back (fn_params func) with
  | None => vfail "type mismatch: instruction requires a continuation reference"
  | Some (ps, VRef rt) =>
    vcheck (rf_concrete rt) "type mismatch: expected a continuation reference, found {}" ;;
    let! other := cont_type_of_ref rt in
    let! other_func := func_type_of_cont_type other in
    vcheck (is_func_subtype (fn_results tag_ty) (fn_results tag_ty) (fn_results func) (fn_results other_func))
      "type mismatch in continuation types" ;;
    pop_concrete_ref true i ;; pops ps ;; pushes (fn_params other_func)
  | Some _ => vfail "type mismatch: expected a continuation reference, found {}"
  end.

(** * Descriptors (4573-4590), shuffles (simd.rs:857-865) *)
Definition visit_ref_get_desc (i : Z) : V unit :=
  let! tb := pop_concrete_or_exact_ref true i in
  let! t := sub_type_at i in
  match c_descriptor (s_comp t) with
  | Some d => push_operand (VRef (mkR false (if snd tb then HX d else HC d)))
  | None => vfail "expected type with descriptor"
  end.
Definition visit_i8x16_shuffle (lanes : list Z) : V unit :=
  pop VV128 ;; pop VV128 ;; vall (fun i => check_simd_lane_index i 32) lanes ;; push_operand VV128.
End Env.
