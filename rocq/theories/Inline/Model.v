(** Inline function types of the text format (crates/wast/src/core/resolve/types.rs).

    Spans, names of parameters and everything of a field in which no function type can be written are left out. *)
From Coq Require Import List Arith Bool.
Import ListNotations.

(** Identifiers: of the source, or generated ([gensym], wast/src/gensym.rs); [Index] (token.rs). *)
Inductive id := Src (n : nat) | Gen (n : nat).
Inductive idx := Num (n : nat) | Sym (x : id).
(** [ValType]: a number for each type in which no index occurs; references to a defined type, compared as they are written. *)
Inductive vt := Plain (n : nat) | Ref (nullable : bool) (h : idx).
(** [FunctionType] and its [FuncKey] (types.rs:242-254), which are the same here. *)
Record fty := mkF { f_params : list vt; f_results : list vt }.
Definition vt_dec (a b : vt) : {a = b} + {a <> b}. Proof. repeat decide equality. Defined.
Definition fty_dec (a b : fty) : {a = b} + {a <> b}. Proof. decide equality; apply (list_eq_dec vt_dec). Defined.
(** [TypeDef] and [InnerTypeKind]; arrays, structs and continuations by a number. *)
Inductive inner := KFunc (f : fty) | KOther (n : nat).
Record tdef := mkDef { d_kind : inner; d_shared : bool; d_parent : option idx; d_descriptor : option idx; d_describes : option idx; d_final : option bool }.
(** [TypeUse]. *)
Record use := mkUse { u_index : option idx; u_inline : option fty }.
(** Instructions: [k] tells block, if, loop, try and try_table apart, and the two indirect calls. *)
Inductive instr := Block (k : nat) (u : use) | CallIndirect (k : nat) (u : use) | Other (n : nat).
(** [ItemSig]: [k] tells functions, exact functions and tags apart. *)
Inductive sig := SUse (k : nat) (u : use) | SOther (n : nat).
(** [ModuleField]; an element segment has the offset of an active one and its expressions. *)
Inductive field :=
| FType (x : option id) (d : tdef) | FRec (l : list (option id * tdef)) | FImport (l : list sig) | FFunc (u : use) (body : option (list instr)) | FGlobal (e : option (list instr))
| FData (e : option (list instr)) | FElem (o : option (list instr)) (es : list (list instr)) | FTag (u : use) | FTable (e : option (list instr)) | FOther (n : nat).

(** [Expander] (types.rs:12-22) with the counter of [gensym] (gensym.rs:4-20), which is taken not to overflow and whose values are shifted by one. *)
Record st := mkSt { s_next : nat; s_map : list (fty * idx); s_new : list (id * tdef) }.
Fixpoint lookup (k : fty) (m : list (fty * idx)) : option idx := match m with [] => None | (k', i) :: m => if fty_dec k k' then Some i else lookup k m end.
(** [insert] (types.rs:275-277). *)
Definition insert (k : fty) (i : idx) (m : list (fty * idx)) : list (fty * idx) := match lookup k m with Some _ => m | None => m ++ [(k, i)] end.
Fixpoint walk {A} (f : A -> st -> A * st) (l : list A) (s : st) : list A * st :=
  match l with [] => ([], s) | a :: l => let (a, s) := f a s in let (l, s) := walk f l s in (a :: l, s) end.
Definition walk_opt {A} (f : A -> st -> A * st) (o : option A) (s : st) : option A * st := match o with Some a => let (a, s) := f a s in (Some a, s) | None => (None, s) end.
(** [expand_header] (types.rs:50-64); a type in a group has no inline use of it. *)
Definition expand_header (f : field) (s : st) : field * st :=
  match f with
  | FType x d =>
    let (x, c) := match x with Some x => (x, s_next s) | None => (Gen (s_next s), S (s_next s)) end in
    (FType (Some x) d, mkSt c (match d_kind d with KFunc k => insert k (Sym x) (s_map s) | KOther _ => s_map s end) (s_new s))
  | f => (f, s)
  end.
(** [to_def] (types.rs:261-273). *)
Definition to_def (k : fty) : tdef := mkDef (KFunc k) false None None None None.
(** [key_to_idx] (types.rs:206-227). *)
Definition key_to_idx (k : fty) (s : st) : idx * st :=
  match lookup k (s_map s) with
  | Some i => (i, s)
  | None => let x := Gen (s_next s) in (Sym x, mkSt (S (s_next s)) (insert k (Sym x) (s_map s)) (s_new s ++ [(x, to_def k)]))
  end.
(** [expand_type_use] (types.rs:186-204). *)
Definition expand_use (u : use) (s : st) : use * st :=
  match u_index u with
  | Some _ => (u, s)
  | None => let (i, s) := key_to_idx (match u_inline u with Some k => k | None => mkF [] [] end) s in (mkUse (Some i) (u_inline u), s)
  end.
(** [expand_instr] (types.rs:140-184). *)
Definition expand_instr (i : instr) (s : st) : instr * st :=
  match i with
  | Block k u =>
    match u_index u, u_inline u with
    | Some _, _ => (i, s)
    | None, Some f =>
      if (length (f_params f) =? 0) && (length (f_results f) <=? 1) then (i, s) else let (u, s) := expand_use u s in (Block k u, s)
    | None, None => (Block k (mkUse None (Some (mkF [] []))), s)
    end
  | CallIndirect k u => let (u, s) := expand_use u s in (CallIndirect k u, s)
  | Other n => (i, s)
  end.
(** [expand_expression] (types.rs:134-138), [expand_item_sig] (125-132), [expand] (66-123). *)
Definition expand_expr : list instr -> st -> list instr * st := walk expand_instr.
Definition expand_sig (x : sig) (s : st) : sig * st := match x with SUse k u => let (u, s) := expand_use u s in (SUse k u, s) | SOther n => (x, s) end.
Definition expand_field (f : field) (s : st) : field * st :=
  match f with
  | FType _ _ | FRec _ | FOther _ => (f, s)
  | FImport l => let (l, s) := walk expand_sig l s in (FImport l, s)
  | FFunc u b => let (u, s) := expand_use u s in let (b, s) := walk_opt expand_expr b s in (FFunc u b, s)
  | FGlobal e => let (e, s) := walk_opt expand_expr e s in (FGlobal e, s)
  | FData e => let (e, s) := walk_opt expand_expr e s in (FData e, s)
  | FElem o es => let (o, s) := walk_opt expand_expr o s in let (es, s) := walk expand_expr es s in (FElem o es, s)
  | FTag u => let (u, s) := expand_use u s in (FTag u, s)
  | FTable e => let (e, s) := walk_opt expand_expr e s in (FTable e, s)
  end.
(** [process] (types.rs:25-48).  The first pass adds no field: only [key_to_idx] does. *)
Definition expand (next : nat) (fs : list field) : list field :=
  let (fs, s) := walk expand_header fs (mkSt next [] []) in
  let (fs, s) := walk expand_field fs s in
  fs ++ map (fun e => FType (Some (fst e)) (snd e)) (s_new s).
