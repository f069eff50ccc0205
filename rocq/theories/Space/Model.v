(** Index spaces of the text format: inline imports, exports and segments, the order of imports, and module-level names
    (crates/wast/src/core/resolve/deinline_import_export.rs, mod.rs, names.rs; crates/wast/src/core/binary.rs).

    The contents of items are numbers.  Type definitions and names inside of function bodies are not part of this model. *)
From Coq Require Import List Arith Bool.
Import ListNotations.

Inductive id := Src (n : nat) | Gen (n : nat).
Definition id_dec (a b : id) : {a = b} + {a <> b}. Proof. decide equality; apply Nat.eq_dec. Defined.
Inductive idx := Num (n : nat) | Sym (x : id).
Inductive kind := Func | Table | Memory | Global | Tag.
Definition kind_dec (a b : kind) : {a = b} + {a <> b}. Proof. decide equality. Defined.
(** [FuncKind], [MemoryKind], [TableKind], [GlobalKind], [TagKind]: the content [n] stands for the type with the names of the import, or with the
    definition; an inlined segment (memories and tables only in the code) has its own. *)
Inductive body := Imported | Defined | Inlined (p : nat).
(** [ModuleField]; a segment is of data for [Memory] and of elements for [Table], and active if it has a target. *)
Inductive field :=
| FImport (l : list (kind * option id * nat)) | FItem (k : kind) (x : option id) (exports : list nat) (b : body) (n : nat)
| FExport (name : nat) (k : kind) (i : idx) | FStart (i : idx) | FSegment (k : kind) (i : option idx) (p : nat) | FOther (n : nat).

(** [gensym::fill] (gensym.rs:18-20). *)
Definition fill (x : option id) (c : nat) : id * nat := match x with Some x => (x, c) | None => (Gen c, S c) end.
(** The exports of an item (deinline_import_export.rs:10-12 and the like, 230-244). *)
Fixpoint exports_of (k : kind) (x : option id) (es : list nat) (c : nat) : list field * option id * nat :=
  match es with
  | [] => ([], x, c)
  | e :: es => let (y, c) := fill x c in let '(fs, z, c) := exports_of k (Some y) es c in (FExport e k (Sym y) :: fs, z, c)
  end.
(** One field in [run] (deinline_import_export.rs:7-223). *)
Definition deinline (f : field) (c : nat) : list field * nat :=
  match f with
  | FItem k x es b n =>
    let '(fs, x, c) := exports_of k x es c in
    match b with
    | Imported => (fs ++ [FImport [(k, x, n)]], c)
    | Defined => (fs ++ [FItem k x [] Defined n], c)
    | Inlined p => let (y, c) := fill x c in (fs ++ [FSegment k (Some (Sym y)) p; FItem k (Some y) [] Defined n], c)
    end
  | f => ([f], c)
  end.
(** [run] (deinline_import_export.rs:6-228). *)
Fixpoint run (fs : list field) (c : nat) : list field * nat :=
  match fs with [] => ([], c) | f :: fs => let (a, c) := deinline f c in let (b, c) := run fs c in (a ++ b, c) end.

Inductive failure := ImportAfter | Duplicate (k : kind) (x : id) | Unknown (k : kind) (x : id).
Inductive res (A : Type) := Ok (a : A) | Err (e : failure).
Arguments Ok {A} a. Arguments Err {A} e.
Definition bind {A B} (r : res A) (f : A -> res B) : res B := match r with Ok a => f a | Err e => Err e end.
(** Imports come first (mod.rs:34-50).  Tags are not looked at. *)
Fixpoint check_order (last : bool) (fs : list field) : res unit :=
  match fs with
  | [] => Ok tt
  | FImport _ :: fs => if last then Err ImportAfter else check_order last fs
  | FItem k _ _ _ _ :: fs => check_order (match k with Memory | Func | Table | Global => true | Tag => last end) fs
  | _ :: fs => check_order last fs
  end.
(** [Namespace] (wast/src/names.rs:5-54). *)
Record namespace := mkNs { ns_names : list (id * nat); ns_count : nat }.
Fixpoint get (x : id) (m : list (id * nat)) : option nat := match m with [] => None | (y, i) :: m => if id_dec x y then Some i else get x m end.
Definition register (k : kind) (name : option id) (s : namespace) : res namespace :=
  let index := ns_count s in
  match name with
  | None => Ok (mkNs (ns_names s) (S index))
  | Some x => match get x (ns_names s) with Some _ => Err (Duplicate k x) | None => Ok (mkNs ((x, index) :: ns_names s) (S index)) end
  end.
Fixpoint register_sigs (k : kind) (l : list (kind * option id * nat)) (s : namespace) : res namespace :=
  match l with [] => Ok s | (k', x, _) :: l => bind (if kind_dec k k' then register k x s else Ok s) (register_sigs k l) end.
(** [register] (names.rs:86-127), for one of the namespaces: they are independent, and each is filled on its own here. *)
Fixpoint register_all (k : kind) (fs : list field) (s : namespace) : res namespace :=
  match fs with
  | [] => Ok s
  | FImport l :: fs => bind (register_sigs k l s) (register_all k fs)
  | FItem k' x _ _ _ :: fs => bind (if kind_dec k k' then register k x s else Ok s) (register_all k fs)
  | _ :: fs => register_all k fs s
  end.
(** [Namespace::resolve] (wast/src/names.rs:43-53). *)
Definition resolve_idx (ns : kind -> namespace) (k : kind) (i : idx) : res idx :=
  match i with Num n => Ok i | Sym x => match get x (ns_names (ns k)) with Some n => Ok (Num n) | None => Err (Unknown k x) end end.
(** [resolve_field] (names.rs:129-275), for these references. *)
Definition resolve_field (ns : kind -> namespace) (f : field) : res field :=
  match f with
  | FExport e k i => bind (resolve_idx ns k i) (fun i => Ok (FExport e k i))
  | FStart i => bind (resolve_idx ns Func i) (fun i => Ok (FStart i))
  | FSegment k (Some i) p => bind (resolve_idx ns k i) (fun i => Ok (FSegment k (Some i) p))
  | f => Ok f
  end.
Fixpoint resolve_fields (ns : kind -> namespace) (fs : list field) : res (list field) :=
  match fs with [] => Ok [] | f :: fs => bind (resolve_field ns f) (fun f => bind (resolve_fields ns fs) (fun fs => Ok (f :: fs))) end.
Definition empty : namespace := mkNs [] 0.
(** [resolve] (mod.rs:22-60) without the expansion of types. *)
Definition resolve (fs : list field) : res (list field) :=
  let (fs, _) := run fs 0 in
  bind (check_order false fs) (fun _ =>
  bind (register_all Func fs empty) (fun f => bind (register_all Table fs empty) (fun t => bind (register_all Memory fs empty) (fun m =>
  bind (register_all Global fs empty) (fun g => bind (register_all Tag fs empty) (fun x =>
  resolve_fields (fun k => match k with Func => f | Table => t | Memory => m | Global => g | Tag => x end) fs)))))).
(** The sections of the binary (binary.rs:112-172): all the imports in one, the definitions of each kind in another;
    the index space of a kind is its imports followed by its definitions. *)
Definition imports (k : kind) (fs : list field) : list nat :=
  flat_map (fun f => match f with FImport l => flat_map (fun e => if kind_dec k (fst (fst e)) then [snd e] else []) l | _ => [] end) fs.
Definition definitions (k : kind) (fs : list field) : list nat := flat_map (fun f => match f with FItem k' _ _ _ n => if kind_dec k k' then [n] else [] | _ => [] end) fs.
Definition encoded (k : kind) (fs : list field) : list (bool * nat) := map (pair true) (imports k fs) ++ map (pair false) (definitions k fs).
