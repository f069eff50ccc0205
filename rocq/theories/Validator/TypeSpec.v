(** Declarative typing of function bodies, after the validation chapter of the WebAssembly specification
    (release 3.0, with threads, relaxed SIMD, wide arithmetic, memory control and exact references).
    A specification: nothing here is run by the validator.  Stack types are written as in the
    specification, with the top of the stack last. *)
From Verif.Base Require Import Prelude.
From Verif.Types Require Import RefModel CodecModel CanonModel.
From Verif.Instr Require Import ImmModel Ops.
From Verif.Validator Require Import State Checks Sig.

(** Value types with bottom types: of all types, of all reference types, and of the references to an abstract heap type where
    it is not known whether they are shared.  The last is not in the specification: it is what converting a reference of unknown type
    between [any] and [extern] yields here (see [C16_br_table_refuted] for where this shows). *)
Inductive dt := DBot | DRefBot | DUnk (a : aht) | DVal (v : val).
Notation dv := (map DVal).

(** What typing looks at: the module, whether exact references are enabled, whether the function is shared, the types of its
    locals, of the labels around (innermost first) and of its results. *)
Record ctx := mkCtx
  { cx_mod : resources; cx_exact : bool; cx_shared : bool;
    cx_locals : list val; cx_labels : list (list val); cx_return : list val }.
Definition under (C : ctx) (l : list val) : ctx :=
  mkCtx (cx_mod C) (cx_exact C) (cx_shared C) (cx_locals C) (l :: cx_labels C) (cx_return C).

Section Context.
Variable C : ctx.
Notation M := (cx_mod C).
Notation "'let?' x := e 'in' k" := (match e with Some x => k | None => None end) (at level 200, x pattern, e at level 100, k at level 200).
Definition guard {A} (b : bool) (k : option A) : option A := if b then k else None.

(** * Subtyping *)
Definition sub (a b : val) : bool := r_is_subtype M a b.
Definition dsub (a b : dt) : Prop :=
  match a, b with
  | DBot, _ => True
  | DRefBot, (DRefBot | DUnk _ | DVal (VRef _)) => True
  | DUnk a, DUnk b => aht_is_subtype a b = true
  | DUnk a, DVal b => exists shared, sub (VRef (abs false shared a)) b = true
  | DVal a, DVal b => sub a b = true
  | _, _ => False
  end.
Definition dsubs : list dt -> list dt -> Prop := Forall2 dsub.

(** * What indices refer to.  A shared function sees shared things only. *)
Definition sees (shared : bool) : bool := implb (cx_shared C) shared.
Definition sig_func (i : Z) : option fnty :=
  let? t := r_sub_type_at M i in match c_inner (s_comp t) with IFunc ps rs => guard (sees (c_shared (s_comp t))) (Some (mkFn ps rs)) | _ => None end.
Definition sig_struct (i : Z) : option (list (fty uidx)) :=
  let? t := r_sub_type_at M i in match c_inner (s_comp t) with IStruct fs => guard (sees (c_shared (s_comp t))) (Some fs) | _ => None end.
Definition sig_array (i : Z) : option (fty uidx) :=
  let? t := r_sub_type_at M i in match c_inner (s_comp t) with IArray f => guard (sees (c_shared (s_comp t))) (Some f) | _ => None end.
Definition sig_field (i f : Z) : option (fty uidx) := let? fs := sig_struct i in nth_error fs (Z.to_nat f).
Definition sig_global (i : Z) : option glbty := let? g := r_global_at M i in guard (sees (gl_shared g)) (Some g).
Definition sig_table (i : Z) : option tblty := let? t := r_table_at M i in guard (sees (tb_shared t)) (Some t).
Definition sig_mem (i : Z) : option val := let? m := r_memory_at M i in Some (index_type m).
Definition sig_data (i : Z) : bool := match r_data_count M with Some n => i <? n | None => false end.
Definition sig_tag (i : Z) : option (list val) := let? f := r_tag_at M i in match fn_results f with [] => Some (fn_params f) | _ => None end.
Definition label (d : Z) : option (list val) := nth_error (cx_labels C) (Z.to_nat d).

(** Types written in instructions: references to types of the module are resolved. *)
Definition resolve (h : hp) : option hp := match r_check_heap_type M h 0 with Ok h => Some h | Err _ => None end.
Definition reference (r : rf) : option rf := let? h := resolve (rt_heap r) in r_new (rt_null r) h.
Definition value (v : p_val) : option val :=
  let? v := of_val v in
  match v with
  | VRef r => guard (implb (rf_exact r) (cx_exact C)) (let? r := reference r in Some (VRef r))
  | _ => Some v
  end.
Definition block_type (b : p_block) : option (list val * list val) :=
  match b with
  | PBEmpty => Some ([], [])
  | PBType v => let? v := value v in Some ([], [v])
  | PBFunc i => let? f := sig_func i in Some (fn_params f, fn_results f)
  end.
(** [(ref null? $i)], and the type of a newly allocated object, which is exact. *)
Definition ref_type (nullable : bool) (i : Z) : option val := let? r := reference (mkR nullable (HC (UModule i))) in Some (VRef r).
Definition new_type (i : Z) : option val :=
  let? r := reference (mkR false (if cx_exact C then HX (UModule i) else HC (UModule i))) in Some (VRef r).
(** Types with descriptors are allocated with other instructions. *)
Definition plain_struct (i : Z) : option (list (fty uidx)) :=
  let? fs := sig_struct i in let? t := r_sub_type_at M i in match c_descriptor (s_comp t) with None => Some fs | Some _ => None end.

Definition storage (f : fty uidx) : val := st_unpack (fd_elem f).
Definition storage_sub (a b : sty uidx) : bool :=
  match a, b with SI8, SI8 | SI16, SI16 => true | SVal a, SVal b => sub a b | _, _ => false end.
Definition is_ref (v : val) : bool := match v with VRef _ => true | _ => false end.
(** Casts go down from the top of the hierarchy; continuations cannot be cast. *)
Definition castable (h : hp) : bool := match r_top_type M h with HA _ Cont => false | _ => true end.
Definition cast_types (nullable : bool) (h : heap_type) : option (val * val) :=
  let? r := reference (mkR nullable (of_heap h)) in
  guard (castable (rt_heap r)) (let? top := r_new true (r_top_type M (rt_heap r)) in Some (VRef top, VRef r)).
(** Of two address types the smaller one. *)
Definition addr_min (a b : val) : val := match a, b with VI64, VI64 => VI64 | _, _ => VI32 end.
Definition mem_access (m : p_memarg) (natural : bool) : option val :=
  let? a := sig_mem (pm_memory m) in
  guard (if natural then pm_align m =? pm_max_align m else pm_align m <=? pm_max_align m)
    (guard (match a with VI32 => pm_offset m <? 2 ^ 32 | _ => true end) (Some a)).
Definition callee (o : operator) : option (list val * fnty) :=   (* what is popped besides the arguments *)
  match o with
  | Op_Call i | Op_ReturnCall i => let? t := r_type_index_of_function M i in let? f := sig_func t in Some ([], f)
  | Op_CallIndirect t tab | Op_ReturnCallIndirect t tab =>
    let? x := sig_table tab in let? f := sig_func t in guard (sub (VRef (tb_elem x)) FUNCREF) (Some ([index_type (tb_64 x)], f))
  | Op_CallRef t | Op_ReturnCallRef t => let? r := ref_type true t in let? f := sig_func t in Some ([r], f)
  | _ => None
  end.

(** * Instructions of a fixed type *)
Definition other_sig (o : operator) : option (list val * list val) :=
  match o with
  | Op_Nop | Op_AtomicFence => Some ([], [])
  | Op_Call _ | Op_CallIndirect _ _ | Op_CallRef _ => let? (top, f) := callee o in Some (fn_params f ++ top, fn_results f)
  | Op_TypedSelect t => let? t := value t in Some ([t; t; VI32], [t])
  | Op_GlobalGet i => let? g := sig_global i in Some ([], [gl_ty g])
  | Op_GlobalSet i => let? g := sig_global i in guard (gl_mut g) (Some ([gl_ty g], []))
  | Op_I8x16Shuffle lanes => guard (forallb (fun l => l <? 32) lanes) (Some ([VV128; VV128], [VV128]))
  (* memories *)
  | Op_MemorySize m => let? a := sig_mem m in Some ([], [a])
  | Op_MemoryGrow m => let? a := sig_mem m in Some ([a], [a])
  | Op_MemoryInit d m => let? a := sig_mem m in guard (sig_data d) (Some ([a; VI32; VI32], []))
  | Op_DataDrop d => guard (sig_data d) (Some ([], []))
  | Op_MemoryCopy d s => let? a := sig_mem d in let? b := sig_mem s in Some ([a; b; addr_min a b], [])
  | Op_MemoryFill m => let? a := sig_mem m in Some ([a; VI32; a], [])
  | Op_MemoryDiscard m => let? a := sig_mem m in Some ([a; a], [])
  | Op_MemoryAtomicNotify m => let? a := mem_access m true in Some ([a; VI32], [VI32])
  | Op_MemoryAtomicWait32 m => let? a := mem_access m true in Some ([a; VI32; VI64], [VI32])
  | Op_MemoryAtomicWait64 m => let? a := mem_access m true in Some ([a; VI64; VI64], [VI32])
  (* tables *)
  | Op_TableGet i => let? t := sig_table i in Some ([index_type (tb_64 t)], [VRef (tb_elem t)])
  | Op_TableSet i => let? t := sig_table i in Some ([index_type (tb_64 t); VRef (tb_elem t)], [])
  | Op_TableSize i => let? t := sig_table i in Some ([], [index_type (tb_64 t)])
  | Op_TableGrow i => let? t := sig_table i in Some ([VRef (tb_elem t); index_type (tb_64 t)], [index_type (tb_64 t)])
  | Op_TableFill i => let? t := sig_table i in Some ([index_type (tb_64 t); VRef (tb_elem t); index_type (tb_64 t)], [])
  | Op_TableCopy d s =>
    let? a := sig_table d in let? b := sig_table s in
    guard (sub (VRef (tb_elem b)) (VRef (tb_elem a)))
      (Some ([index_type (tb_64 a); index_type (tb_64 b); addr_min (index_type (tb_64 a)) (index_type (tb_64 b))], []))
  | Op_TableInit e i =>
    let? t := sig_table i in let? r := r_element_type_at M e in
    guard (sub (VRef r) (VRef (tb_elem t))) (Some ([index_type (tb_64 t); VI32; VI32], []))
  | Op_ElemDrop e => let? r := r_element_type_at M e in Some ([], [])
  (* references *)
  | Op_RefNull h => let? r := reference (mkR true (of_heap h)) in guard (implb (rf_exact (mkR true (of_heap h))) (cx_exact C)) (Some ([], [VRef r]))
  | Op_RefFunc i =>
    let? id := r_type_id_of_function M i in
    guard (r_is_function_referenced M i)
      (let? r := r_new false (if cx_exact C && r_has_function_exact_type M i then HX (UId id) else HC (UId id)) in Some ([], [VRef r]))
  | Op_RefI31 => Some ([VI32], [VRef (abs false false I31)])
  | Op_RefI31Shared => Some ([VI32], [VRef (abs false true I31)])
  | Op_RefTestNonNull h => let? (top, r) := cast_types false h in Some ([top], [VI32])
  | Op_RefTestNullable h => let? (top, r) := cast_types true h in Some ([top], [VI32])
  | Op_RefCastNonNull h => let? (top, r) := cast_types false h in Some ([top], [r])
  | Op_RefCastNullable h => let? (top, r) := cast_types true h in Some ([top], [r])
  (* structures *)
  | Op_StructNew i => let? fs := plain_struct i in let? t := new_type i in Some (map storage fs, [t])
  | Op_StructNewDefault i =>
    let? fs := plain_struct i in let? t := new_type i in guard (forallb (fun f => is_defaultable (storage f)) fs) (Some ([], [t]))
  | Op_StructGet i f => let? fd := sig_field i f in let? r := ref_type true i in guard (negb (is_packed (fd_elem fd))) (Some ([r], [storage fd]))
  | Op_StructGetS i f | Op_StructGetU i f =>
    let? fd := sig_field i f in let? r := ref_type true i in guard (is_packed (fd_elem fd)) (Some ([r], [VI32]))
  | Op_StructSet i f => let? fd := sig_field i f in let? r := ref_type true i in guard (fd_mut fd) (Some ([r; storage fd], []))
  (* arrays *)
  | Op_ArrayNew i => let? fd := sig_array i in let? t := new_type i in Some ([storage fd; VI32], [t])
  | Op_ArrayNewDefault i => let? fd := sig_array i in let? t := new_type i in guard (is_defaultable (storage fd)) (Some ([VI32], [t]))
  | Op_ArrayNewFixed i n => let? fd := sig_array i in let? t := new_type i in Some (repeat (storage fd) (Z.to_nat n), [t])
  | Op_ArrayNewData i d =>
    let? fd := sig_array i in let? t := new_type i in guard (negb (is_ref (storage fd)) && sig_data d) (Some ([VI32; VI32], [t]))
  | Op_ArrayNewElem i e =>
    let? fd := sig_array i in let? t := new_type i in let? r := r_element_type_at M e in
    guard (is_ref (storage fd) && sub (VRef r) (storage fd)) (Some ([VI32; VI32], [t]))
  | Op_ArrayGet i => let? fd := sig_array i in let? r := ref_type true i in guard (negb (is_packed (fd_elem fd))) (Some ([r; VI32], [storage fd]))
  | Op_ArrayGetS i | Op_ArrayGetU i => let? fd := sig_array i in let? r := ref_type true i in guard (is_packed (fd_elem fd)) (Some ([r; VI32], [VI32]))
  | Op_ArraySet i => let? fd := sig_array i in let? r := ref_type true i in guard (fd_mut fd) (Some ([r; VI32; storage fd], []))
  | Op_ArrayFill i => let? fd := sig_array i in let? r := ref_type true i in guard (fd_mut fd) (Some ([r; VI32; storage fd; VI32], []))
  | Op_ArrayCopy d s =>
    let? a := sig_array d in let? b := sig_array s in let? ra := ref_type true d in let? rb := ref_type true s in
    guard (fd_mut a && storage_sub (fd_elem b) (fd_elem a)) (Some ([ra; VI32; rb; VI32; VI32], []))
  | Op_ArrayInitData i d =>
    let? fd := sig_array i in let? r := ref_type true i in
    guard (fd_mut fd && negb (is_ref (storage fd)) && sig_data d) (Some ([r; VI32; VI32; VI32], []))
  | Op_ArrayInitElem i e =>
    let? fd := sig_array i in let? r := ref_type true i in let? x := r_element_type_at M e in
    guard (fd_mut fd && is_ref (storage fd) && sub (VRef x) (storage fd)) (Some ([r; VI32; VI32; VI32], []))
  | _ => None
  end.
Definition sig (o : operator) : option (list val * list val) :=
  match num_sig o, lane_sig o, mem_sig o with
  | Some s, _, _ => Some s
  | _, Some (exists_, ins, outs), _ => guard exists_ (Some (ins, outs))
  | _, _, Some (m, natural, lane_ok, f) => guard lane_ok (let? a := mem_access m natural in Some (f a))
  | _, _, _ => other_sig o
  end.

(** * Exception handlers *)
Definition catch_ok (c : catch) : Prop :=
  match c with
  | COne tag l => exists ts us, sig_tag tag = Some ts /\ label l = Some us /\ dsubs (dv ts) (dv us)
  | COneRef tag l => exists ts us, sig_tag tag = Some ts /\ label l = Some us /\ dsubs (dv (ts ++ [VRef (abs false false Exn)])) (dv us)
  | CAll l => label l = Some []
  | CAllRef l => exists us, label l = Some us /\ dsubs (dv [VRef (abs false false Exn)]) (dv us)
  end.
(** The target of a cast within the hierarchy of its source; exact references allow any target of it. *)
Definition cast_ok (from to : rf) : Prop :=
  if cx_exact C then r_top_type M (rt_heap from) = r_top_type M (rt_heap to)
  else castable (rt_heap to) = true /\ sub (VRef to) (VRef from) = true.
Definition reference_imm (r : Z) : option rf := let? r := of_ref r in reference r.
End Context.

(** * Instructions *)
Inductive instr :=
| IOp (o : operator)
| IBlock (b : p_block) (es : list instr)
| ILoop (b : p_block) (es : list instr)
| IIf (b : p_block) (es : list instr) (els : option (list instr))
| ITryTable (t : p_try_table) (es : list instr).

(** Neither numbers nor vectors are references. *)
Definition num_or_vec (t : dt) : Prop := match t with DBot => True | DRefBot | DUnk _ => False | DVal v => is_ref v = false end.

(** [i_ok C X i ts xs us]: where the locals of [X] are set, [i] takes [ts] to [us] and sets the locals [xs]. *)
Inductive i_ok : ctx -> list Z -> instr -> list dt -> list Z -> list dt -> Prop :=
| ok_sig C X o ins outs : sig C o = Some (ins, outs) -> i_ok C X (IOp o) (dv ins) [] (dv outs)
| ok_unreachable C X ts us : i_ok C X (IOp Op_Unreachable) ts [] us
| ok_drop C X t : i_ok C X (IOp Op_Drop) [t] [] []
| ok_select C X t : num_or_vec t -> i_ok C X (IOp Op_Select) [t; t; DVal VI32] [] [t]
(* locals *)
| ok_local_get C X i t : nth_error (cx_locals C) (Z.to_nat i) = Some t -> In i X -> i_ok C X (IOp (Op_LocalGet i)) [] [] [DVal t]
| ok_local_set C X i t : nth_error (cx_locals C) (Z.to_nat i) = Some t -> i_ok C X (IOp (Op_LocalSet i)) [DVal t] [i] []
| ok_local_tee C X i t : nth_error (cx_locals C) (Z.to_nat i) = Some t -> i_ok C X (IOp (Op_LocalTee i)) [DVal t] [i] [DVal t]
(* branches *)
| ok_br C X d l ts us : label C d = Some l -> i_ok C X (IOp (Op_Br d)) (ts ++ dv l) [] us
| ok_br_if C X d l : label C d = Some l -> i_ok C X (IOp (Op_BrIf d)) (dv l ++ [DVal VI32]) [] (dv l)
| ok_br_table C X t ds l ts us : targets t = (ds, None) ->
    Forall (fun d => exists m, label C d = Some m /\ dsubs C l (dv m)) (pb_default t :: ds) ->
    i_ok C X (IOp (Op_BrTable t)) (ts ++ l ++ [DVal VI32]) [] us
| ok_return C X ts us : i_ok C X (IOp Op_Return) (ts ++ dv (cx_return C)) [] us
| ok_return_call C X o top f ts us : match o with Op_ReturnCall _ | Op_ReturnCallIndirect _ _ | Op_ReturnCallRef _ => True | _ => False end ->
    callee C o = Some (top, f) -> dsubs C (dv (fn_results f)) (dv (cx_return C)) ->
    i_ok C X (IOp o) (ts ++ dv (fn_params f ++ top)) [] us
| ok_throw C X i ps ts us : sig_tag C i = Some ps -> i_ok C X (IOp (Op_Throw i)) (ts ++ dv ps) [] us
| ok_throw_ref C X ts us : i_ok C X (IOp Op_ThrowRef) (ts ++ [DVal EXNREF]) [] us
(* references *)
| ok_is_null C X r : i_ok C X (IOp Op_RefIsNull) [DVal (VRef r)] [] [DVal VI32]
| ok_as_non_null C X r : i_ok C X (IOp Op_RefAsNonNull) [DVal (VRef r)] [] [DVal (VRef (rf_non_null r))]
| ok_as_non_null_bot C X t : t = DRefBot \/ (exists a, t = DUnk a) -> i_ok C X (IOp Op_RefAsNonNull) [t] [] [t]
| ok_br_on_null C X d l r : label C d = Some l ->
    i_ok C X (IOp (Op_BrOnNull d)) (dv l ++ [DVal (VRef r)]) [] (dv l ++ [DVal (VRef (rf_non_null r))])
| ok_br_on_null_bot C X d l t : t = DRefBot \/ (exists a, t = DUnk a) -> label C d = Some l ->
    i_ok C X (IOp (Op_BrOnNull d)) (dv l ++ [t]) [] (dv l ++ [t])
| ok_br_on_non_null C X d l r : label C d = Some (l ++ [VRef r]) ->
    i_ok C X (IOp (Op_BrOnNonNull d)) (dv l ++ [DVal (VRef (rf_nullable r))]) [] (dv l)
| ok_br_on_cast C X d from to f t l u : reference_imm C from = Some f -> reference_imm C to = Some t -> cast_ok C f t ->
    label C d = Some (l ++ [u]) -> sub C (VRef t) u = true ->
    i_ok C X (IOp (Op_BrOnCast d from to)) (dv l ++ [DVal (VRef f)]) [] (dv l ++ [DVal (VRef (rf_difference f t))])
| ok_br_on_cast_fail C X d from to f t l u : reference_imm C from = Some f -> reference_imm C to = Some t -> cast_ok C f t ->
    label C d = Some (l ++ [u]) -> sub C (VRef (rf_difference f t)) u = true ->
    i_ok C X (IOp (Op_BrOnCastFail d from to)) (dv l ++ [DVal (VRef f)]) [] (dv l ++ [DVal (VRef t)])
| ok_ref_eq C X sh : i_ok C X (IOp Op_RefEq) [DVal (VRef (abs true sh Eq)); DVal (VRef (abs true sh Eq))] [] [DVal VI32]
| ok_i31_get C X o sh : o = Op_I31GetS \/ o = Op_I31GetU -> i_ok C X (IOp o) [DVal (VRef (abs true sh I31))] [] [DVal VI32]
| ok_array_len C X sh : i_ok C X (IOp Op_ArrayLen) [DVal (VRef (abs true sh Array))] [] [DVal VI32]
| ok_any_convert C X nullable sh :
    i_ok C X (IOp Op_AnyConvertExtern) [DVal (VRef (abs nullable sh Extern))] [] [DVal (VRef (abs nullable sh Any))]
| ok_any_convert_unknown C X : i_ok C X (IOp Op_AnyConvertExtern) [DUnk Extern] [] [DUnk Any]
| ok_extern_convert_unknown C X : i_ok C X (IOp Op_ExternConvertAny) [DUnk Any] [] [DUnk Extern]
| ok_extern_convert C X nullable sh :
    i_ok C X (IOp Op_ExternConvertAny) [DVal (VRef (abs nullable sh Any))] [] [DVal (VRef (abs nullable sh Extern))]
(* blocks *)
| ok_block C X b es ts us xs : block_type C b = Some (ts, us) -> es_ok (under C us) X es (dv ts) xs (dv us) ->
    i_ok C X (IBlock b es) (dv ts) [] (dv us)
| ok_loop C X b es ts us xs : block_type C b = Some (ts, us) -> es_ok (under C ts) X es (dv ts) xs (dv us) ->
    i_ok C X (ILoop b es) (dv ts) [] (dv us)
| ok_if C X b es els ts us xs ys : block_type C b = Some (ts, us) -> es_ok (under C us) X es (dv ts) xs (dv us) ->
    es_ok (under C us) X (match els with Some es => es | None => [] end) (dv ts) ys (dv us) ->
    i_ok C X (IIf b es els) (dv ts ++ [DVal VI32]) [] (dv us)
| ok_try_table C X t es ts us xs : block_type C (pt_ty t) = Some (ts, us) -> Forall (catch_ok C) (pt_catches t) ->
    es_ok (under C us) X es (dv ts) xs (dv us) ->
    i_ok C X (ITryTable t es) (dv ts) [] (dv us)
(** Sequences of instructions. *)
with es_ok : ctx -> list Z -> list instr -> list dt -> list Z -> list dt -> Prop :=
| es_nil C X : es_ok C X [] [] [] []
| es_one C X i ts xs us : i_ok C X i ts xs us -> es_ok C X [i] ts xs us
| es_app C X es es' ts us vs xs ys : es_ok C X es ts xs us -> es_ok C (xs ++ X) es' us ys vs -> es_ok C X (es ++ es') ts (xs ++ ys) vs
| es_frame C X es fs ts us xs : es_ok C X es ts xs us -> es_ok C X es (fs ++ ts) xs (fs ++ us)
| es_sub C X es ts us ts' us' xs : es_ok C X es ts xs us -> dsubs C ts' ts -> dsubs C us us' -> es_ok C X es ts' xs us'.

(** * Bodies as operators *)
Fixpoint flatten_i (i : instr) : list operator :=
  let flatten := fix flatten (es : list instr) : list operator :=
    match es with [] => [] | e :: es => flatten_i e ++ flatten es end in
  match i with
  | IOp o => [o]
  | IBlock b es => Op_Block b :: flatten es ++ [Op_End]
  | ILoop b es => Op_Loop b :: flatten es ++ [Op_End]
  | IIf b es els => Op_If b :: flatten es ++ match els with Some l => Op_Else :: flatten l | None => [] end ++ [Op_End]
  | ITryTable t es => Op_TryTable t :: flatten es ++ [Op_End]
  end.
Fixpoint flatten (es : list instr) : list operator := match es with [] => [] | e :: es => flatten_i e ++ flatten es end.

(** The operators the rules cover: not those of blocks, which stand in [instr], nor those of legacy exceptions, stack switching,
    descriptors and atomic accesses outside memories.  Indices of locals are [u32]. *)
Definition covered (o : operator) : bool :=
  match o with
  | Op_Block _ | Op_Loop _ | Op_If _ | Op_Else | Op_End | Op_TryTable _
  | Op_Try _ | Op_Catch _ | Op_Rethrow _ | Op_Delegate _ | Op_CatchAll
  | Op_ContNew _ | Op_ContBind _ _ | Op_Suspend _ | Op_Resume _ _ | Op_ResumeThrow _ _ _ | Op_ResumeThrowRef _ _ | Op_Switch _ _
  | Op_StructNewDesc _ | Op_StructNewDefaultDesc _ | Op_RefGetDesc _ | Op_RefCastDescEqNonNull _ | Op_RefCastDescEqNullable _
  | Op_BrOnCastDescEq _ _ _ | Op_BrOnCastDescEqFail _ _ _
  | Op_GlobalAtomicGet _ _ | Op_GlobalAtomicSet _ _ | Op_GlobalAtomicRmwAdd _ _ | Op_GlobalAtomicRmwSub _ _ | Op_GlobalAtomicRmwAnd _ _
  | Op_GlobalAtomicRmwOr _ _ | Op_GlobalAtomicRmwXor _ _ | Op_GlobalAtomicRmwXchg _ _ | Op_GlobalAtomicRmwCmpxchg _ _
  | Op_TableAtomicGet _ _ | Op_TableAtomicSet _ _ | Op_TableAtomicRmwXchg _ _ | Op_TableAtomicRmwCmpxchg _ _
  | Op_StructAtomicGet _ _ _ | Op_StructAtomicGetS _ _ _ | Op_StructAtomicGetU _ _ _ | Op_StructAtomicSet _ _ _
  | Op_StructAtomicRmwAdd _ _ _ | Op_StructAtomicRmwSub _ _ _ | Op_StructAtomicRmwAnd _ _ _ | Op_StructAtomicRmwOr _ _ _
  | Op_StructAtomicRmwXor _ _ _ | Op_StructAtomicRmwXchg _ _ _ | Op_StructAtomicRmwCmpxchg _ _ _
  | Op_ArrayAtomicGet _ _ | Op_ArrayAtomicGetS _ _ | Op_ArrayAtomicGetU _ _ | Op_ArrayAtomicSet _ _
  | Op_ArrayAtomicRmwAdd _ _ | Op_ArrayAtomicRmwSub _ _ | Op_ArrayAtomicRmwAnd _ _ | Op_ArrayAtomicRmwOr _ _
  | Op_ArrayAtomicRmwXor _ _ | Op_ArrayAtomicRmwXchg _ _ | Op_ArrayAtomicRmwCmpxchg _ _ => false
  | Op_LocalGet i | Op_LocalSet i | Op_LocalTee i => 0 <=? i
  | _ => true
  end.
Fixpoint covered_i (i : instr) : bool :=
  let all := fix all (es : list instr) : bool := match es with [] => true | e :: es => covered_i e && all es end in
  match i with
  | IOp o => covered o
  | IBlock _ es | ILoop _ es | ITryTable _ es => all es
  | IIf _ es els => all es && match els with Some l => all l | None => true end
  end.

(** What is asked of the module's answers: that they do not depend on the offset, which serves error messages only; that subtyping is
    the one of the specification as far as its shape goes; and that nullability and sharing are where the type says. *)
Record res_ok (M : resources) := mkResOk
  { ro_offset : forall h a b, match r_check_heap_type M h a, r_check_heap_type M h b with Ok x, Ok y => x = y | Err _, Err _ => True | _, _ => False end;
    ro_index : forall h a h', r_check_heap_type M h a = Ok h' -> match h with HC u | HX u => packs u = true | HA _ _ => True end;
    ro_hsub : hp -> hp -> bool;
    ro_ref : forall a b, r_is_subtype M (VRef a) (VRef b) = implb (rt_null a) (rt_null b) && ro_hsub (rt_heap a) (rt_heap b);
    ro_num : forall a b, is_ref a && is_ref b = false -> r_is_subtype M a b = val_eqb a b;
    ro_refl : forall h, ro_hsub h h = true;
    ro_trans : forall a b c, ro_hsub a b = true -> ro_hsub b c = true -> ro_hsub a c = true;
    ro_abs : forall s s' a b, ro_hsub (HA s a) (HA s' b) = Bool.eqb s s' && aht_is_subtype a b;
    ro_shared : hp -> bool;
    ro_is_shared : forall r, r_is_shared M r = ro_shared (rt_heap r);
    ro_shared_abs : forall s t, ro_shared (HA s t) = s;
    ro_shared_sub : forall a b, ro_hsub a b = true -> ro_shared a = ro_shared b;
    ro_top : forall h, r_top_type M (r_top_type M h) = r_top_type M h }.

(** * Functions *)
(** The locals a body declares: each group is a number of locals and their type. *)
Fixpoint locals_of (C : ctx) (groups : list (Z * p_val)) : option (list val) :=
  match groups with
  | [] => Some []
  | (n, t) :: groups =>
    match value C t, locals_of C groups with Some v, Some l => Some (repeat v (Z.to_nat n) ++ l) | _, _ => None end
  end.
(** The locals that are set at the start: the parameters and those whose type has a default value. *)
Definition set_at_start (ps ls : list val) : list bool := map (fun _ => true) ps ++ map is_defaultable ls.
Definition initially_set (ps ls : list val) : list Z :=
  filter (fun i => nth (Z.to_nat i) (set_at_start ps ls) false) (map Z.of_nat (seq 0 (List.length (ps ++ ls)))).
(** A function of type [ty] with these locals and this body.  50000 is the limit on locals of this implementation. *)
Definition func_ok (M : resources) (exact : bool) (ty : Z) (groups : list (Z * p_val)) (ops : list operator) : Prop :=
  exists t ps rs ls es xs,
    r_sub_type_at M ty = Some t /\ c_inner (s_comp t) = IFunc ps rs /\
    locals_of (mkCtx M exact (c_shared (s_comp t)) [] [] []) groups = Some ls /\ zlen (ps ++ ls) <= 50000 /\
    ops = flatten es ++ [Op_End] /\
    es_ok (mkCtx M exact (c_shared (s_comp t)) (ps ++ ls) [rs] rs) (initially_set ps ls) es [] xs (dv rs).
(** The operators of bodies that have a rule here: as [covered], with those of blocks. *)
Definition has_rule (o : operator) : bool :=
  match o with
  | Op_Block _ | Op_Loop _ | Op_If _ | Op_Else | Op_End | Op_TryTable _ => true
  | Op_LocalGet _ | Op_LocalSet _ | Op_LocalTee _ => true
  | _ => covered o
  end.
