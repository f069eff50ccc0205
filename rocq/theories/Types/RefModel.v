(** Model of the bit-packed [PackedIndex] and [RefType]
    (crates/wasmparser/src/readers/core/types.rs), with the "validate" feature on. *)
From Verif.Base Require Import Prelude.

(** [enum AbstractHeapType] (types.rs:1557-1650). *)
Inductive aht := Func | Extern | Any | ANone | NoExtern | NoFunc | Eq | Struct | Array | I31 | Exn | NoExn | Cont | NoCont.

(** [enum UnpackedIndex] (types.rs:243-253); a [CoreTypeId] is its index. *)
Inductive uidx := UModule (i : Z) | URecGroup (i : Z) | UId (i : Z).

(** [enum HeapType] (types.rs:1521-1539). *)
Inductive heap_type := HAbstract (shared : bool) (ty : aht) | HConcrete (i : uidx) | HExact (i : uidx).

(** * [PackedIndex] (types.rs:64-213), a [u32] *)
Definition KIND_MASK : Z := Z.shiftl 3 20.
Definition P_INDEX_MASK : Z := Z.shiftl 1 20 - 1.
Definition MODULE_KIND : Z := Z.shiftl 0 20.
Definition REC_GROUP_KIND : Z := Z.shiftl 1 20.
Definition ID_KIND : Z := Z.shiftl 2 20.
(** [can_represent_index] (types.rs:108-110), [kind], [index] (113-120). *)
Definition can_represent_index (i : Z) : bool := Z.land i P_INDEX_MASK =? i.
Definition p_kind (p : Z) : Z := Z.land p KIND_MASK.
Definition p_index (p : Z) : Z := Z.land p P_INDEX_MASK.
(** [from_module_index], [from_rec_group_index], [from_id] (types.rs:124-154). *)
Definition from_kind (k i : Z) : option Z := if can_represent_index i then Some (Z.lor k i) else None.
Definition from_module_index (i : Z) : option Z := from_kind MODULE_KIND i.
Definition from_rec_group_index (i : Z) : option Z := from_kind REC_GROUP_KIND i.
Definition from_id (i : Z) : option Z := from_kind ID_KIND i.
(** [unpack] (types.rs:169-179); [None] is [unreachable!()]. *)
Definition unpack (p : Z) : option uidx :=
  if p_kind p =? MODULE_KIND then Some (UModule (p_index p))
  else if p_kind p =? REC_GROUP_KIND then Some (URecGroup (p_index p))
  else if p_kind p =? ID_KIND then Some (UId (p_index p))
  else None.
(** [UnpackedIndex::pack] (types.rs:259-266). *)
Definition pack (u : uidx) : option Z :=
  match u with
  | UModule i => from_module_index i
  | URecGroup i => from_rec_group_index i
  | UId i => from_id i
  end.
(** [is_canonical] (types.rs:158-164), [as_module_index] .. (183-212). *)
Definition p_is_canonical (p : Z) : option bool :=
  if (p_kind p =? REC_GROUP_KIND) || (p_kind p =? ID_KIND) then Some true
  else if p_kind p =? MODULE_KIND then Some false else None.
Definition as_module_index (p : Z) : option Z := if p_kind p =? MODULE_KIND then Some (p_index p) else None.
Definition as_rec_group_index (p : Z) : option Z := if p_kind p =? REC_GROUP_KIND then Some (p_index p) else None.
Definition as_core_type_id (p : Z) : option Z := if p_kind p =? ID_KIND then Some (p_index p) else None.

(** * [RefType] (types.rs:1024-1430), a [u32] *)
Definition CONCRETE_BIT : Z := Z.shiftl 1 24.
Definition EXACT_BIT : Z := Z.shiftl 1 23.
Definition NULLABLE_BIT : Z := Z.shiftl 1 22.
Definition SHARED_BIT : Z := Z.shiftl 1 21.
Definition ABSTYPE_MASK : Z := Z.shiftl 15 17.
Definition INDEX_MASK : Z := Z.shiftl 1 22 - 1.
(** The [_ABSTYPE] constants (types.rs:1096-1109). *)
Definition abstype (t : aht) : Z :=
  match t with
  | Any => Z.shiftl 15 17 | Eq => Z.shiftl 13 17 | I31 => Z.shiftl 8 17 | Struct => Z.shiftl 9 17
  | Array => Z.shiftl 12 17 | Func => Z.shiftl 5 17 | NoFunc => Z.shiftl 4 17 | Extern => Z.shiftl 3 17
  | NoExtern => Z.shiftl 2 17 | Exn => Z.shiftl 1 17 | NoExn => Z.shiftl 14 17 | ANone => Z.shiftl 0 17
  | Cont => Z.shiftl 7 17 | NoCont => Z.shiftl 6 17
  end.
Definition bit_of (b : bool) : Z := if b then 1 else 0.

(** [concrete], [exact] (types.rs:1250-1263). *)
Definition ref_concrete (nullable : bool) (index : Z) : Z :=
  Z.lor (Z.lor (NULLABLE_BIT * bit_of nullable) CONCRETE_BIT) index.
Definition ref_exact (nullable : bool) (index : Z) : Z :=
  Z.lor (Z.lor (Z.lor (NULLABLE_BIT * bit_of nullable) EXACT_BIT) CONCRETE_BIT) index.
(** [new] (types.rs:1269-1295). *)
Definition ref_new (nullable : bool) (h : heap_type) : option Z :=
  match h with
  | HConcrete i => match pack i with Some p => Some (ref_concrete nullable p) | None => None end
  | HExact i => match pack i with Some p => Some (ref_exact nullable p) | None => None end
  | HAbstract shared ty =>
      let base32 := Z.lor (NULLABLE_BIT * bit_of nullable) (SHARED_BIT * bit_of shared) in
      Some (Z.lor base32 (abstype ty))
  end.
(** [is_concrete_type_ref], [is_exact_type_ref] (types.rs:1313-1320); [!self.as_u32() & m == 0]. *)
Definition is_concrete (r : Z) : bool := negb (Z.land r CONCRETE_BIT =? 0).
Definition is_exact (r : Z) : bool := Z.land (2 ^ 32 - 1 - r) (Z.lor EXACT_BIT CONCRETE_BIT) =? 0.
(** [type_index] (types.rs:1324-1331), [is_nullable] (1374-1376), [as_non_null], [nullable] (1379-1386),
    [shared] (1389-1395). *)
Definition type_index (r : Z) : option Z := if is_concrete r then Some (Z.land r INDEX_MASK) else None.
Definition is_nullable (r : Z) : bool := negb (Z.land r NULLABLE_BIT =? 0).
Definition as_non_null (r : Z) : Z := Z.land r (2 ^ 32 - 1 - NULLABLE_BIT).
Definition to_nullable (r : Z) : Z := Z.lor r NULLABLE_BIT.
Definition to_shared (r : Z) : option Z := if is_concrete r then None else Some (Z.lor r SHARED_BIT).
(** [is_func_ref] .. [is_none_ref] (types.rs:1340-1371). *)
Definition is_abs_ref (t : aht) (r : Z) : bool := negb (is_concrete r) && (Z.land r ABSTYPE_MASK =? abstype t).

(** [heap_type] (types.rs:1398-1427); [None] is a panic of [unwrap] or [unreachable!()]. *)
Definition abs_of (s : Z) : option aht :=
  let m := Z.land s ABSTYPE_MASK in
  if m =? abstype Func then Some Func
  else if m =? abstype Extern then Some Extern
  else if m =? abstype Any then Some Any
  else if m =? abstype ANone then Some ANone
  else if m =? abstype NoExtern then Some NoExtern
  else if m =? abstype NoFunc then Some NoFunc
  else if m =? abstype Eq then Some Eq
  else if m =? abstype Struct then Some Struct
  else if m =? abstype Array then Some Array
  else if m =? abstype I31 then Some I31
  else if m =? abstype Exn then Some Exn
  else if m =? abstype NoExn then Some NoExn
  else if m =? abstype Cont then Some Cont
  else if m =? abstype NoCont then Some NoCont
  else None.
Definition heap_type_of (r : Z) : option heap_type :=
  if is_concrete r then
    match type_index r with
    | None => None
    | Some p =>
        match unpack p with
        | None => None
        | Some u => if negb (is_exact r) then Some (HConcrete u) else Some (HExact u)
        end
    end
  else
    match abs_of r with
    | Some ty => Some (HAbstract (negb (Z.land r SHARED_BIT =? 0)) ty)
    | None => None
    end.
(** [difference] (types.rs:1300-1310). *)
Definition difference (a b : Z) : option Z :=
  match heap_type_of a with
  | None => None
  | Some h => ref_new (if is_nullable b then false else is_nullable a) h
  end.
(** The checks of [from_u32] (types.rs:1217-1243), which every constructor passes
    through (debug builds assert them). *)
Definition from_u32_ok (x : Z) : bool :=
  (Z.land x (Z.shiftl 127 25) =? 0) &&
  (negb (Z.land x CONCRETE_BIT =? 0) || match abs_of x with Some _ => true | None => false end).
