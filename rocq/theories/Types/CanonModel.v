(** Model of the canonicalisation and interning of recursion groups and of the subtype
    tests of the validator:
    - crates/wasmparser/src/validator/core/canonical.rs ([canon.rs] below),
    - crates/wasmparser/src/validator/types.rs, [TypeList] ([vtypes.rs] below),
    - crates/wasmparser/src/readers/core/types/matches.rs,
    - crates/wasmparser/src/readers/core/types.rs ([types.rs] below).

    Simplifications.  All proposals are taken to be enabled, so every [require_feature] and
    [check_value_type] succeeds and [needs_type_canonicalization] is true.  A type reference
    is held unpacked and tagged by its kind: the three index kinds of a type are three
    instances of one polymorphic syntax ([Z] module index, [loc] canonical, [Z] type id);
    the limit of the packed form (2^20) is kept, and the packing itself is property C14.
    The [SnapshotList]s are lists (property C22) and the hash maps association lists.
    Error offsets and the values printed in messages are dropped. *)
From Verif.Base Require Import Prelude.
From Verif.Types Require Export RefModel.

(** * Outcome of an operation that can refuse its input, panic, or not return *)
Inductive outcome (A : Type) :=
| Done (a : A) | Refused (msg : string) | Panicked | Diverged.
Arguments Done {A} _. Arguments Refused {A} _. Arguments Panicked {A}. Arguments Diverged {A}.
Definition obind {A B} (o : outcome A) (k : A -> outcome B) : outcome B :=
  match o with Done a => k a | Refused m => Refused m | Panicked => Panicked | Diverged => Diverged end.
Notation "'do' x <- m 'in' k" := (obind m (fun x => k)) (at level 200, x name, m at level 100, k at level 200).
(** [a && b], left to right. *)
Definition oand (a b : outcome bool) : outcome bool := do x <- a in if x then b else Done false.

(** The element at an index, if any. *)
Definition nthz {A} (l : list A) (i : Z) : option A := if i <? 0 then None else nth_error l (Z.to_nat i).

(** * Syntax of types, over the kind [I] of type references *)
Section Syntax.
Variable I : Type.
(** [HeapType] (types.rs:1521-1539), [RefType] (1024-1036), [ValType] (866-881). *)
Inductive heap := HA (shared : bool) (t : aht) | HC (i : I) | HX (i : I).
Record rty := mkR { rt_null : bool; rt_heap : heap }.
Inductive vty := VI32 | VI64 | VF32 | VF64 | VV128 | VRef (r : rty).
(** [StorageType] (types.rs:785-794), [FieldType] (764-772). *)
Inductive sty := SI8 | SI16 | SVal (v : vty).
Record fty := mkF { fd_elem : sty; fd_mut : bool }.
(** [CompositeInnerType] (types.rs:559-571), [CompositeType] and [SubType] (459-481). *)
Inductive inner := IFunc (ps rs : list vty) | IArray (f : fty) | IStruct (fs : list fty) | ICont (i : I).
Record comp := mkC { c_inner : inner; c_shared : bool; c_descriptor : option I; c_describes : option I }.
Record subty := mkS { s_final : bool; s_super : option I; s_comp : comp }.
End Syntax.
Arguments HA {I}. Arguments HC {I}. Arguments HX {I}. Arguments mkR {I}. Arguments rt_null {I}. Arguments rt_heap {I}.
Arguments VI32 {I}. Arguments VI64 {I}. Arguments VF32 {I}. Arguments VF64 {I}. Arguments VV128 {I}. Arguments VRef {I}.
Arguments SI8 {I}. Arguments SI16 {I}. Arguments SVal {I}. Arguments mkF {I}. Arguments fd_elem {I}. Arguments fd_mut {I}.
Arguments IFunc {I}. Arguments IArray {I}. Arguments IStruct {I}. Arguments ICont {I}.
Arguments mkC {I}. Arguments c_inner {I}. Arguments c_shared {I}. Arguments c_descriptor {I}. Arguments c_describes {I}.
Arguments mkS {I}. Arguments s_final {I}. Arguments s_super {I}. Arguments s_comp {I}.

(** ** [remap_indices] (types.rs:521-556, 774-782, 857-863, 943-963): rewrite every type reference,
    supertype first, then descriptor, described type, and the structure from left to right. *)
Section Remap.
Context {I J : Type}.
Variable f : I -> outcome J.
Fixpoint t_list {A B} (g : A -> outcome B) (l : list A) : outcome (list B) :=
  match l with [] => Done [] | a :: l => do b <- g a in do r <- t_list g l in Done (b :: r) end.
Definition t_opt (o : option I) : outcome (option J) :=
  match o with None => Done None | Some i => do j <- f i in Done (Some j) end.
Definition t_heap (h : heap I) : outcome (heap J) :=
  match h with
  | HA s t => Done (HA s t)
  | HC i => do j <- f i in Done (HC j)
  | HX i => do j <- f i in Done (HX j)
  end.
Definition t_ref (r : rty I) : outcome (rty J) := do h <- t_heap (rt_heap r) in Done (mkR (rt_null r) h).
Definition t_val (v : vty I) : outcome (vty J) :=
  match v with
  | VI32 => Done VI32 | VI64 => Done VI64 | VF32 => Done VF32 | VF64 => Done VF64 | VV128 => Done VV128
  | VRef r => do r <- t_ref r in Done (VRef r)
  end.
Definition t_sto (s : sty I) : outcome (sty J) :=
  match s with SI8 => Done SI8 | SI16 => Done SI16 | SVal v => do v <- t_val v in Done (SVal v) end.
Definition t_fld (x : fty I) : outcome (fty J) := do e <- t_sto (fd_elem x) in Done (mkF e (fd_mut x)).
Definition t_inner (n : inner I) : outcome (inner J) :=
  match n with
  | IFunc ps rs => do ps <- t_list t_val ps in do rs <- t_list t_val rs in Done (IFunc ps rs)
  | IArray x => do x <- t_fld x in Done (IArray x)
  | IStruct fs => do fs <- t_list t_fld fs in Done (IStruct fs)
  | ICont i => do j <- f i in Done (ICont j)
  end.
Definition t_sub (s : subty I) : outcome (subty J) :=
  let c := s_comp s in
  do sup <- t_opt (s_super s) in
  do dr <- t_opt (c_descriptor c) in
  do ds <- t_opt (c_describes c) in
  do n <- t_inner (c_inner c) in
  Done (mkS (s_final s) sup (mkC n (c_shared c) dr ds)).
End Remap.

(** * Canonicalisation (canon.rs) *)
(** A canonical reference: [UnpackedIndex::RecGroup] or [UnpackedIndex::Id] (types.rs:243-253). *)
Inductive loc := LRec (i : Z) | LId (i : Z).
(** [PackedIndex::can_represent_index] (types.rs:108-110): RefModel's, as a comparison. *)
Definition MAX_INDEX : Z := 2 ^ 20.
Definition limits_MAX_WASM_TYPES : Z := 1000000.  (* limits.rs *)
Definition MAX_WASM_SUBTYPING_DEPTH : Z := 63.

(** [canonicalize_type_index] (canon.rs:466-522) in [HashConsing] mode on a module index;
    [ids] are the module's types so far ([type_id_at], core.rs:1015-1020). *)
Definition canon_index (ids : list Z) (len : Z) (i : Z) : outcome loc :=
  let start := zlen ids in
  if i <? start then
    match nthz ids i with
    | Some id => if id <? MAX_INDEX then Done (LId id) else Refused "too many types in `TypeList`"
    | None => Refused "unknown type"
    end
  else
    let local := i - start in
    if local <? len then if local <? MAX_INDEX then Done (LRec local) else Refused "too many types in a recursion group"
    else Refused "unknown type".
(** [canonicalize_rec_group] (canon.rs:437-464). *)
Definition canon_type (ids : list Z) (len k : Z) (t : subty Z) : outcome (subty loc) :=
  let bad o := match o with Some i => zlen ids + k <=? i | None => false end in
  if bad (s_super t) then Refused "supertypes must be defined before subtypes"
  else if bad (c_describes (s_comp t)) then Refused "forward describes reference"
  else t_sub (canon_index ids len) t.
Fixpoint canon_types (ids : list Z) (len k : Z) (l : list (subty Z)) : outcome (list (subty loc)) :=
  match l with
  | [] => Done []
  | t :: l => do c <- canon_type ids len k t in do r <- canon_types ids len (k + 1) l in Done (c :: r)
  end.
Definition canon_group (ids : list Z) (g : list (subty Z)) : outcome (list (subty loc)) := canon_types ids (zlen g) 0 g.

(** * The list of types (vtypes.rs:868-897) *)
Record store := mkStore {
  st_types : list (subty Z);                (* core_types *)
  st_group_of : list Z;                     (* core_type_to_rec_group *)
  st_super : list (option Z);               (* core_type_to_supertype *)
  st_depth : list (Z * Z);                  (* core_type_to_depth *)
  st_ranges : list (Z * Z);                 (* rec_group_elements *)
  st_canon : list (list (subty loc) * Z)    (* canonical_rec_groups *)
}.
Definition empty_store : store := mkStore [] [] [] [] [] [].

Definition loc_eq_dec : forall a b : loc, {a = b} + {a <> b}.
Proof. decide equality; apply Z.eq_dec. Defined.
Definition aht_dec : forall a b : aht, {a = b} + {a <> b}.
Proof. decide equality. Defined.
Section Eq.
Context {I : Type} (E : forall a b : I, {a = b} + {a <> b}).
Definition heap_dec : forall a b : heap I, {a = b} + {a <> b}.
Proof. decide equality; first [apply aht_dec | apply bool_dec]. Defined.
Definition rty_dec : forall a b : rty I, {a = b} + {a <> b}.
Proof. decide equality; [apply heap_dec | apply bool_dec]. Defined.
Definition vty_dec : forall a b : vty I, {a = b} + {a <> b}.
Proof. decide equality; apply rty_dec. Defined.
Definition sty_dec : forall a b : sty I, {a = b} + {a <> b}.
Proof. decide equality; apply vty_dec. Defined.
Definition fty_dec : forall a b : fty I, {a = b} + {a <> b}.
Proof. decide equality; [apply bool_dec | apply sty_dec]. Defined.
Definition opt_dec : forall a b : option I, {a = b} + {a <> b}.
Proof. decide equality. Defined.
Definition inner_dec : forall a b : inner I, {a = b} + {a <> b}.
Proof. decide equality; first [apply list_eq_dec; first [apply vty_dec | apply fty_dec] | apply fty_dec]. Defined.
Definition comp_dec : forall a b : comp I, {a = b} + {a <> b}.
Proof. decide equality; first [apply opt_dec | apply bool_dec | apply inner_dec]. Defined.
Definition subty_dec : forall a b : subty I, {a = b} + {a <> b}.
Proof. decide equality; first [apply comp_dec | apply opt_dec | apply bool_dec]. Defined.
End Eq.
(** Equality of recursion groups (types.rs:423-429): the types only, not the offsets and not
    whether the group was written explicitly. *)
Definition group_dec : forall a b : list (subty loc), {a = b} + {a <> b} := list_eq_dec (subty_dec loc_eq_dec).
Fixpoint find_group (g : list (subty loc)) (m : list (list (subty loc) * Z)) : option Z :=
  match m with [] => None | (k, v) :: m => if group_dec g k then Some v else find_group g m end.

(** [intern_canonical_rec_group] (vtypes.rs:928-993): whether the group is new, and its id.
    [u32::try_from(..).unwrap()] of the lengths and the [pack().unwrap()] of line 971-973 panic. *)
Definition super_id (start : Z) (l : loc) : Z := match l with LRec o => start + o | LId i => i end.
Definition to_id (start : Z) (l : loc) : outcome Z :=
  match l with LRec o => if start + o <? MAX_INDEX then Done (start + o) else Panicked | LId i => Done i end.
Definition intern (s : store) (g : list (subty loc)) : outcome (store * bool * Z) :=
  let gid := zlen (st_ranges s) in
  if gid <? 2 ^ 32 then
    match find_group g (st_canon s) with
    | Some id => Done (s, false, id)
    | None =>
      let start := zlen (st_types s) in
      if start <? 2 ^ 32 then
        do ts <- t_list (t_sub (to_id start)) g in
        let types := st_types s ++ ts in
        if zlen types <? 2 ^ 32 then
          Done (mkStore types
                  (st_group_of s ++ map (fun _ => gid) g)
                  (st_super s ++ map (fun t => option_map (super_id start) (s_super t)) g)
                  (st_depth s)
                  (st_ranges s ++ [(start, zlen types)])
                  (st_canon s ++ [(g, gid)]), true, gid)
        else Panicked
      else Panicked
    end
  else Panicked.

(** Indexing panics out of bounds ([Index for SnapshotList], vtypes.rs:820-844). *)
Definition unwrap {A} (o : option A) : outcome A := match o with Some a => Done a | None => Panicked end.
Definition type_at (s : store) (id : Z) : outcome (subty Z) := unwrap (nthz (st_types s) id).
(** [supertype_of] (vtypes.rs:1038-1040). *)
Definition supertype_of (s : store) (id : Z) : outcome (option Z) := unwrap (nthz (st_super s) id).
(** [get_subtyping_depth] and [set_subtyping_depth] (vtypes.rs:1044-1064); indexing the map by an absent key panics. *)
Fixpoint find_depth (m : list (Z * Z)) (id : Z) : option Z :=
  match m with [] => None | (k, v) :: m => if k =? id then Some v else find_depth m id end.
Definition get_depth (s : store) (id : Z) : outcome Z := unwrap (find_depth (st_depth s) id).
Definition set_depth (s : store) (id d : Z) : store :=
  mkStore (st_types s) (st_group_of s) (st_super s) ((id, d) :: st_depth s) (st_ranges s) (st_canon s).

(** * Subtype tests *)
(** [AbstractHeapType::is_subtype_of] (types.rs:1678-1701). *)
Definition aht_is_subtype (a b : aht) : bool :=
  if aht_dec a b then true else
  match a, b with
  | (Eq | I31 | Struct | Array | ANone), Any => true
  | (I31 | Struct | Array | ANone), Eq => true
  | NoExtern, Extern => true
  | NoFunc, Func => true
  | ANone, (I31 | Array | Struct) => true
  | NoExn, Exn => true
  | NoCont, Cont => true
  | _, _ => false
  end.
(** [id_is_subtype] (vtypes.rs:1105-1118): a loop, here with as many rounds as there are types plus one. *)
Fixpoint id_loop (fuel : nat) (s : store) (a b : Z) : outcome bool :=
  match fuel with
  | O => Diverged
  | S n =>
    if a =? b then Done true
    else do sup <- supertype_of s a in
         match sup with Some a => id_loop n s a b | None => Done false end
  end.
Definition id_is_subtype (s : store) (a b : Z) : outcome bool := id_loop (S (List.length (st_types s))) s a b.
(** [matches!(inner, ..)]. *)
Definition is_func (c : comp Z) : bool := match c_inner c with IFunc _ _ => true | _ => false end.
Definition is_array (c : comp Z) : bool := match c_inner c with IArray _ => true | _ => false end.
Definition is_struct (c : comp Z) : bool := match c_inner c with IStruct _ => true | _ => false end.
Definition is_cont (c : comp Z) : bool := match c_inner c with ICont _ => true | _ => false end.
(** [reftype_is_subtype_impl] (vtypes.rs:1135-1223).  The types stored hold ids only, so the
    recursion group arguments play no part and are left out. *)
Definition ref_is_subtype (s : store) (a b : rty Z) : outcome bool :=
  if rty_dec Z.eq_dec a b then Done true
  else if rt_null a && negb (rt_null b) then Done false
  else if heap_dec Z.eq_dec (rt_heap a) (rt_heap b) then Done true
  else
    match rt_heap a, rt_heap b with
    | HA sa ta, HA sb tb => Done (Bool.eqb sa sb && aht_is_subtype ta tb)
    | (HC i | HX i), HA sh t =>
      do st <- type_at s i in
      let c := s_comp st in
      if negb (Bool.eqb (c_shared c) sh) then Done false
      else Done match t with
                | Any | Eq => is_array c || is_struct c
                | Struct => is_struct c
                | Array => is_array c
                | Func => is_func c
                | Cont => is_cont c
                | _ => false
                end
    | HA sh t, (HC i | HX i) =>
      do st <- type_at s i in
      let c := s_comp st in
      if negb (Bool.eqb sh (c_shared c)) then Done false
      else Done match t with
                | ANone => is_array c || is_struct c
                | NoFunc => is_func c
                | NoCont => is_cont c
                | _ => false
                end
    | (HC i | HX i), HC j => id_is_subtype s i j
    | HX i, HX j => Done (i =? j)
    | HC _, HX _ => Done false
    end.
(** [valtype_is_subtype] (vtypes.rs:1229-1240). *)
Definition val_is_subtype (s : store) (a b : vty Z) : outcome bool :=
  if vty_dec Z.eq_dec a b then Done true
  else match a, b with VRef a, VRef b => ref_is_subtype s a b | _, _ => Done false end.
(** [reftype_is_shared], [valtype_is_shared] (vtypes.rs:1243-1262). *)
Definition ref_is_shared (s : store) (r : rty Z) : outcome bool :=
  match rt_heap r with
  | HA sh _ => Done sh
  | HC i | HX i => do t <- type_at s i in Done (c_shared (s_comp t))
  end.
Definition val_is_shared (s : store) (v : vty Z) : outcome bool :=
  match v with VRef r => ref_is_shared s r | _ => Done true end.
(** [top_type] (vtypes.rs:1268-1295). *)
Definition top_type (s : store) (h : heap Z) : outcome (heap Z) :=
  match h with
  | HC i | HX i =>
    do t <- type_at s i in
    let sh := c_shared (s_comp t) in
    Done match c_inner (s_comp t) with
         | IFunc _ _ => HA sh Func
         | IArray _ | IStruct _ => HA sh Any
         | ICont _ => HA sh Cont
         end
  | HA sh t =>
    Done (HA sh match t with
                | Func | NoFunc => Func
                | Extern | NoExtern => Extern
                | Any | Eq | Struct | Array | I31 | ANone => Any
                | Exn | NoExn => Exn
                | Cont | NoCont => Cont
                end)
  end.

(** * Structural matching (matches.rs) *)
(** [ValType] (matches.rs:295-310) and [RefType] (312-321). *)
Definition val_matches (s : store) (a b : vty Z) : outcome bool :=
  match a, b with
  | VRef ra, VRef rb => ref_is_subtype s ra rb
  | VRef _, _ => Done false
  | _, _ => Done (if vty_dec Z.eq_dec a b then true else false)
  end.
(** [StorageType] (matches.rs:262-277), [FieldType] (234-260). *)
Definition sto_matches (s : store) (a b : sty Z) : outcome bool :=
  match a, b with
  | SI8, SI8 | SI16, SI16 => Done true
  | SVal a, SVal b => val_matches s a b
  | _, _ => Done false
  end.
Definition fld_matches (s : store) (a b : fty Z) : outcome bool :=
  do m <- sto_matches s (fd_elem a) (fd_elem b) in
  if negb m then Done false
  else if negb (fd_mut a) && negb (fd_mut b) then Done true
  else if fd_mut a && fd_mut b then sto_matches s (fd_elem b) (fd_elem a) else Done false.
(** [a.iter().zip(b).all(..)]. *)
Fixpoint all2 {A B} (p : A -> B -> outcome bool) (l : list A) (m : list B) : outcome bool :=
  match l, m with a :: l, b :: m => oand (p a b) (all2 p l m) | _, _ => Done true end.
(** [FuncType] (142-208), [ArrayType] (210-218), [StructType] (220-232), [ContType] (279-293),
    [CompositeType] (104-140) and [SubType] (91-102). *)
Definition comp_matches (s : store) (a b : comp Z) : outcome bool :=
  if negb (Bool.eqb (c_shared a) (c_shared b)) then Done false else
  match c_inner a, c_inner b with
  | IFunc pa ra, IFunc pb rb =>
    if negb (Nat.eqb (List.length pa) (List.length pb)) || negb (Nat.eqb (List.length ra) (List.length rb)) then Done false
    else do m <- all2 (fun x y => val_matches s y x) pa pb in
         if m then all2 (val_matches s) ra rb else Done false
  | IArray x, IArray y => fld_matches s x y
  | IStruct fa, IStruct fb =>
    if Nat.leb (List.length fb) (List.length fa) then all2 (fld_matches s) fa fb else Done false
  | ICont i, ICont j => if i =? j then Done true else ref_is_subtype s (mkR false (HC i)) (mkR false (HC j))
  | _, _ => Done false
  end.
(** [TypeList::matches] (vtypes.rs:1093-1101). *)
Definition type_matches (s : store) (a b : Z) : outcome bool :=
  do ta <- type_at s a in do tb <- type_at s b in comp_matches s (s_comp ta) (s_comp tb).

(** * Checks on a new group (canon.rs:126-386) *)
(** [check_composite_type] (canon.rs:290-386). *)
Definition check_shared (s : store) (shared : bool) (v : vty Z) : outcome unit :=
  if shared then
    do b <- val_is_shared s v in
    if b then Done tt else Refused "shared composite type must contain shared types"
  else Done tt.
Definition check_field (s : store) (shared : bool) (x : fty Z) : outcome unit :=
  match fd_elem x with SVal v => check_shared s shared v | _ => Done tt end.
Fixpoint check_all {A} (c : A -> outcome unit) (l : list A) : outcome unit :=
  match l with [] => Done tt | a :: l => do _u <- c a in check_all c l end.
Definition check_composite (s : store) (c : comp Z) : outcome unit :=
  match c_inner c with
  | IFunc ps rs => check_all (check_shared s (c_shared c)) (ps ++ rs)
  | IArray x => check_field s (c_shared c) x
  | IStruct fs => check_all (check_field s (c_shared c)) fs
  | ICont i => do t <- type_at s i in if is_func (s_comp t) then Done tt else Refused "non-function type"
  end.
(** [check_subtype] (canon.rs:126-165). *)
Definition check_subtype (s : store) (id : Z) : outcome store :=
  do ty <- type_at s id in
  do _u <- check_composite s (s_comp ty) in
  do depth <- match s_super ty with
              | Some sup =>
                do st <- type_at s sup in
                if s_final st then Refused "sub type cannot have a final super type"
                else do m <- type_matches s id sup in
                if negb m then Refused "sub type must match super type"
                else do d <- get_depth s sup in
                if MAX_WASM_SUBTYPING_DEPTH <? d + 1 then Refused "sub type hierarchy too deep" else Done (d + 1)
              | None => Done 0
              end in
  Done (set_depth s id depth).
(** [check_descriptors] (canon.rs:166-288); [map_canonical] is the identity on ids. *)
Definition is_some {A} (o : option A) : bool := match o with Some _ => true | None => false end.
Definition opt_is (o : option Z) (i : Z) : bool := match o with Some j => j =? i | None => false end.
Definition check_super_descriptors (s : store) (ty sup : subty Z) : outcome unit :=
  let c := s_comp ty in
  let cs := s_comp sup in
  do _u <- match c_descriptor c, c_descriptor cs with
           | Some d, Some ds =>
             do dt <- type_at s d in
             if opt_is (s_super dt) ds then Done tt
             else Refused "supertype of described type must be described by supertype of descriptor"
           | None, Some _ => Refused "supertype of type without descriptor cannot have descriptor"
           | _, None => Done tt
           end in
  match c_describes c, c_describes cs with
  | Some a, Some b =>
    do at' <- type_at s a in
    if opt_is (s_super at') b then Done tt else Refused "supertype of descriptor does not match"
  | None, None => Done tt
  | None, Some _ => Refused "supertype of non-descriptor type cannot be a descriptor"
  | Some _, None => Refused "supertype of descriptor must be a descriptor"
  end.
Definition check_descriptors (s : store) (id : Z) : outcome unit :=
  do ty <- type_at s id in
  let c := s_comp ty in
  if (is_some (c_descriptor c) || is_some (c_describes c)) && negb (is_struct c) then Refused "clause on non-struct type"
  else
  do _u <- match s_super ty with Some sup => do st <- type_at s sup in check_super_descriptors s ty st | None => Done tt end in
  do _v <- match c_descriptor c with
           | Some d => do dt <- type_at s d in
                       if opt_is (c_describes (s_comp dt)) id then Done tt else Refused "descriptor with no matching describes"
           | None => Done tt
           end in
  match c_describes c with
  | Some d => do dt <- type_at s d in
              if opt_is (c_descriptor (s_comp dt)) id then Done tt else Refused "describes with no matching descriptor"
  | None => Done tt
  end.

(** * Adding a group to a module *)
(** The loop of [canonicalize_and_intern_rec_group] (canon.rs:112-121), over [n] types from [i] on;
    [ids] is the module's list of types ([add_type_id]). *)
Fixpoint add_ids (n : nat) (i : Z) (is_new : bool) (s : store) (ids : list Z) : outcome (store * list Z) :=
  match n with
  | O => Done (s, ids)
  | S n =>
    if is_new then
      do s <- check_subtype s i in
      do _u <- check_descriptors s i in
      add_ids n (i + 1) is_new s (ids ++ [i])
    else add_ids n (i + 1) is_new s (ids ++ [i])
  end.
(** [add_types] (core.rs:511-528; [check_max], validator.rs) and
    [canonicalize_and_intern_rec_group] (canon.rs:86-124). *)
Definition add_group (s : store) (ids : list Z) (g : list (subty Z)) : outcome (store * list Z) :=
  if limits_MAX_WASM_TYPES - zlen ids <? zlen g then Refused "types count exceeds limit" else
  do c <- canon_group ids g in
  do r <- intern s c in
  let '(s, is_new, gid) := r in
  do range <- unwrap (nthz (st_ranges s) gid) in
  add_ids (Z.to_nat (snd range - fst range)) (fst range) is_new s ids.

(** * Histories *)
(** One validator sees many scopes: modules, nested or one after the other ([Validator::reset],
    validator.rs:447-479, keeps the list of types), and the module types of components.  In each
    scope groups are added; a scope may also name a type of another scope (an outer alias,
    component.rs [add_outer_alias]); and the component model interns function types over numbers
    for canonical functions ([intern_func_type], vtypes.rs:1005-1007), without the checks above.
    A scope is the list of the ids of its types.  A refused input ends the history
    (validator.rs:470-473 asserts it). *)
Inductive num := NI32 | NI64 | NF32 | NF64.
Definition num_val {I} (n : num) : vty I := match n with NI32 => VI32 | NI64 => VI64 | NF32 => VF32 | NF64 => VF64 end.
Inductive event :=
| AddGroup (scope : Z) (g : list (subty Z))
| Alias (scope from : Z) (index : Z)
| HostFunc (ps rs : list num).
Record world := mkWorld { w_store : store; w_scope : Z -> list Z }.
Definition start_world : world := mkWorld empty_store (fun _ => []).
Definition upd (f : Z -> list Z) (k : Z) (v : list Z) : Z -> list Z := fun x => if x =? k then v else f x.
(** [SubType::func] (types.rs:485-496). *)
Definition host_type (ps rs : list num) : subty loc := mkS true None (mkC (IFunc (map num_val ps) (map num_val rs)) false None None).
Definition step (w : world) (e : event) : outcome world :=
  match e with
  | AddGroup k g =>
    do r <- add_group (w_store w) (w_scope w k) g in
    Done (mkWorld (fst r) (upd (w_scope w) k (snd r)))
  | Alias k from i =>
    match nthz (w_scope w from) i with
    | Some id => Done (mkWorld (w_store w) (upd (w_scope w) k (w_scope w k ++ [id])))
    | None => Refused "unknown type"
    end
  | HostFunc ps rs =>
    do r <- intern (w_store w) [host_type ps rs] in
    Done (mkWorld (fst (fst r)) (w_scope w))
  end.
Fixpoint run (w : world) (h : list event) : outcome world :=
  match h with [] => Done w | e :: h => do w <- step w e in run w h end.
