(** The live types of WIT (crates/wit-parser/src/live.rs).

    Ids are the indices of the arenas of a [Resolve]; names, documentation and stability do not occur in this code and are left out. *)
From Coq Require Import List Arith.
Import ListNotations.

(** [enum Type] (lib.rs:749-765): one constructor for all the primitive types. *)
Inductive ty := Prim | Id (i : nat).
(** [enum TypeDefKind] (lib.rs:671-695) with the types of fields and cases; [Handle] (742-747). *)
Inductive kind :=
| Record (fields : list ty) | Resource | Own (i : nat) | Borrow (i : nat) | Flags | Tuple (types : list ty) | Variant (cases : list (option ty)) | Enum
| Option (t : ty) | Result (ok err : option ty) | ListOf (t : ty) | MapOf (k v : ty) | FixedLengthList (t : ty) (n : nat) | Future (t : option ty) | Stream (t : option ty)
| Alias (t : ty) | Unknown.
(** [enum FunctionKind] (lib.rs:962-1035), [struct Function] (937-951). *)
Inductive func_kind := Freestanding | AsyncFreestanding | Method (i : nat) | AsyncMethod (i : nat) | Static (i : nat) | AsyncStatic (i : nat) | Constructor (i : nat).
Record function := mkFunction { f_kind : func_kind; f_params : list ty; f_result : option ty }.
(** [struct Interface], [enum WorldItem], [struct World], [struct Resolve]: the types of an interface are given by their ids. *)
Record interface := mkInterface { i_types : list nat; i_functions : list function }.
Inductive item := ItemInterface (i : nat) | ItemFunction (f : function) | ItemType (i : nat).
Record world := mkWorld { w_imports : list item; w_exports : list item }.
Record resolve := mkResolve { r_types : list kind; r_interfaces : list interface; r_worlds : list world }.

(** The [IndexSet] of [LiveTypes] (live.rs:7-9) is a list, the last inserted element last.  A walk gives a set or panics, or it runs out of fuel: it needs a deeper
    stack. *)
Inductive outcome := Done (s : list nat) | Panicked | OutOfFuel.
Definition bind (x : outcome) (f : list nat -> outcome) : outcome := match x with Done s => f s | y => y end.
Definition mem (i : nat) (s : list nat) : bool := existsb (Nat.eqb i) s.
Fixpoint each {A} (f : list nat -> A -> outcome) (s : list nat) (l : list A) : outcome := match l with [] => Done s | a :: l => bind (f s a) (fun s => each f s l) end.
Definition opt {A} (f : list nat -> A -> outcome) (s : list nat) (o : option A) : outcome := match o with Some a => f s a | None => Done s end.

Section Walk.
Variable r : resolve.
(** [visit_type] (live.rs:184-189), [visit_type_def] (134-182), for a given [visit_type_id]. *)
Definition visit_type (vid : list nat -> nat -> outcome) (s : list nat) (t : ty) : outcome := match t with Id i => vid s i | Prim => Done s end.
Definition visit_def (vid : list nat -> nat -> outcome) (s : list nat) (k : kind) : outcome :=
  match k with
  | Alias t | ListOf t | FixedLengthList t _ | Option t | Future (Some t) | Stream (Some t) => visit_type vid s t
  | MapOf k v => bind (visit_type vid s k) (fun s => visit_type vid s v)
  | Own i | Borrow i => vid s i
  | Resource => Done s
  | Record l | Tuple l => each (visit_type vid) s l
  | Variant l => each (opt (visit_type vid)) s l
  | Result a b => bind (opt (visit_type vid) s a) (fun s => opt (visit_type vid) s b)
  | Flags | Enum | Future None | Stream None => Done s
  | Unknown => Panicked
  end.
(** [visit_type_id] (live.rs:127-132) with the callbacks of [LiveTypes] (49-57).  An index out of the arena panics. *)
Fixpoint visit_id (fuel : nat) (s : list nat) (i : nat) : outcome :=
  if mem i s then Done s
  else match nth_error (r_types r) i with
       | None => Panicked
       | Some k =>
         match fuel with
         | O => OutOfFuel
         | S n => bind (visit_def (visit_id n) s k) (fun s => if mem i s then Panicked else Done (s ++ [i]))
         end
       end.
(** [visit_func] (live.rs:101-125). *)
Definition visit_func (n : nat) (s : list nat) (f : function) : outcome :=
  bind (match f_kind f with Static i | AsyncStatic i => visit_id n s i | _ => Done s end) (fun s =>
  bind (each (visit_type (visit_id n)) s (f_params f)) (fun s => opt (visit_type (visit_id n)) s (f_result f))).
(** [visit_interface] (76-84), [visit_world_item] (93-99), [visit_world] (86-91). *)
Definition visit_interface (n : nat) (s : list nat) (i : nat) : outcome :=
  match nth_error (r_interfaces r) i with
  | None => Panicked
  | Some x => bind (each (visit_id n) s (i_types x)) (fun s => each (visit_func n) s (i_functions x))
  end.
Definition visit_item (n : nat) (s : list nat) (x : item) : outcome :=
  match x with ItemInterface i => visit_interface n s i | ItemFunction f => visit_func n s f | ItemType i => visit_id n s i end.
Definition visit_world (n : nat) (s : list nat) (i : nat) : outcome :=
  match nth_error (r_worlds r) i with None => Panicked | Some w => each (visit_item n) s (w_imports w ++ w_exports w) end.

(** The calls of a user: [add_interface] .. [add_type] (live.rs:24-46), starting with [LiveTypes::default]. *)
Inductive call := AddInterface (i : nat) | AddWorld (i : nat) | AddItem (x : item) | AddFunc (f : function) | AddTypeId (i : nat) | AddType (t : ty).
Definition run_call (n : nat) (s : list nat) (c : call) : outcome :=
  match c with
  | AddInterface i => visit_interface n s i
  | AddWorld i => visit_world n s i
  | AddItem x => visit_item n s x
  | AddFunc f => visit_func n s f
  | AddTypeId i => visit_id n s i
  | AddType t => visit_type (visit_id n) s t
  end.
Definition live (n : nat) (l : list call) : outcome := each (run_call n) [] l.
End Walk.
