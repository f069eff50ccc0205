(** What a module being validated answers to the function validator: [ValidatorResources] (validator/core.rs:1115-1195).

    Simplifications: tables, memories and globals are what the function validator looks at of them; types are those of a store
    (validator/types.rs, see Types/CanonModel.v) with references as ids. *)
From Verif.Base Require Import Prelude.
From Verif.Types Require Import RefModel CodecModel CanonModel CanonSpec.
From Verif.Validator Require Import State.

Definition uidx_dec (a b : uidx) : {a = b} + {a <> b}.
Proof. decide equality; apply Z.eq_dec. Defined.
(** [as_core_type_id().unwrap()] and, in [reftype_is_subtype_impl] without groups, [core_type_id] (validator/types.rs:1150-1157). *)
Definition core_id (u : uidx) : outcome Z := match u with UId i => Done i | _ => Panicked end.
Section Store.
Variable s : store.
Definition type_of (u : uidx) : outcome (subty Z) := do i <- core_id u in type_at s i.
(** [reftype_is_subtype_impl] (validator/types.rs:1135-1224) without groups, as [reftype_is_subtype] calls it. *)
Definition rf_is_subtype (a b : rf) : outcome bool :=
  if rty_dec uidx_dec a b then Done true
  else if rt_null a && negb (rt_null b) then Done false
  else if heap_dec uidx_dec (rt_heap a) (rt_heap b) then Done true
  else
    match rt_heap a, rt_heap b with
    | HA sa ta, HA sb tb => Done (Bool.eqb sa sb && aht_is_subtype ta tb)
    | (HC i | HX i), HA sh t =>
      do st <- type_of i in
      let c := s_comp st in
      if negb (Bool.eqb (c_shared c) sh) then Done false
      else Done match t with
                | Any | Eq => is_array c || is_struct c
                | Struct => is_struct c
                | Array => is_array c
                | Func => is_func c
                | Cont => is_cont c
                | _ => false
                end
    | HA sh t, (HC i | HX i) =>
      do st <- type_of i in
      let c := s_comp st in
      if negb (Bool.eqb sh (c_shared c)) then Done false
      else Done match t with
                | ANone => is_array c || is_struct c
                | NoFunc => is_func c
                | NoCont => is_cont c
                | _ => false
                end
    | (HC i | HX i), HC j => do i <- core_id i in do j <- core_id j in id_is_subtype s i j
    | HX i, HX j => do i <- core_id i in do j <- core_id j in Done (i =? j)
    | HC _, HX _ => Done false
    end.
(** [valtype_is_subtype] (1229-1240), [reftype_is_shared] (1255-1262), [top_type] (1268-1295). *)
Definition v_is_subtype (a b : val) : outcome bool :=
  if vty_dec uidx_dec a b then Done true
  else match a, b with VRef a, VRef b => rf_is_subtype a b | _, _ => Done false end.
Definition rf_is_shared (r : rf) : outcome bool :=
  match rt_heap r with HA sh _ => Done sh | HC i | HX i => do t <- type_of i in Done (c_shared (s_comp t)) end.
Definition hp_top (h : hp) : outcome hp :=
  match h with
  | HC i | HX i =>
    do t <- type_of i in
    Done (HA (c_shared (s_comp t)) match c_inner (s_comp t) with IFunc _ _ => Func | IArray _ | IStruct _ => Any | ICont _ => Cont end)
  | HA sh t =>
    Done (HA sh match t with
                | Func | NoFunc => Func
                | Extern | NoExtern => Extern
                | Any | Eq | Struct | Array | I31 | ANone => Any
                | Exn | NoExn => Exn
                | Cont | NoCont => Cont
                end)
  end.

(** [struct Module] (validator/core.rs:463-486), what the function validator is told of it.  Types and tags are ids. *)
Record modul := mkModul
  { md_types : list Z; md_functions : list Z; md_tables : list tblty; md_memories : list bool; md_globals : list glbty; md_tags : list Z;
    md_elements : list rf; md_data_count : option Z; md_references : list Z; md_imported : Z; md_exact_imports : list Z }.
Variable m : modul.
Definition stored (id : Z) : option (subty uidx) := match nthz (st_types s) id with Some t => Some (m_sub UId t) | None => None end.
(** [check_heap_type] (validator/core.rs:838-857) and [type_id_at]; a reference that is not to a type of the module is a panic there, and an
    error here. *)
Definition md_check_heap (h : hp) (at_ : Z) : res hp :=
  let id (u : uidx) (k : uidx -> hp) :=
    match u with
    | UModule i => match nthz (md_types m) i with Some id => Ok (k (UId id)) | None => Err (err_new "unknown type {idx}: type index out of bounds" at_) end
    | _ => Err (err_new "unreachable" at_)
    end in
  match h with HA s t => Ok (HA s t) | HC u => id u HC | HX u => id u HX end.
Definition opt_nthz {A B} (l : list A) (f : A -> option B) (i : Z) : option B := match nthz l i with Some a => f a | None => None end.
Definition func_of (t : subty uidx) : option fnty := match c_inner (s_comp t) with IFunc ps rs => Some (mkFn ps rs) | _ => None end.
Definition answer {A} (default : A) (o : outcome A) : A := match o with Done a => a | _ => default end.
(** [impl WasmModuleResources for ValidatorResources] (validator/core.rs:1117-1195).  A type id out of range would be a panic of the store: the answer
    is then [None], [false] or the type itself. *)
Definition module_resources : resources := mkRes
  (nthz (md_tables m))
  (nthz (md_memories m))
  (opt_nthz (md_tags m) (fun id => match stored id with Some t => func_of t | None => None end))
  (nthz (md_globals m))
  (opt_nthz (md_types m) stored)
  stored
  (opt_nthz (md_functions m) (nthz (md_types m)))
  (nthz (md_functions m))
  (nthz (md_elements m))
  (fun a b => answer false (v_is_subtype a b))
  (fun r => answer false (rf_is_shared r))
  md_check_heap
  (fun h => answer h (hp_top h))
  (md_data_count m)
  (fun i => existsb (Z.eqb i) (md_references m))
  (fun i => if md_imported m <=? i then true else existsb (Z.eqb i) (md_exact_imports m)).
End Store.
