(** Names of labels and locals in function bodies of the text format (crates/wast/src/core/resolve/names.rs, crates/wast/src/names.rs).

    Identifiers are numbers, and they are those of the source: labels and locals get no generated ones.  Names of types, functions
    and the other module-level items are not part of this model. *)
From Coq Require Import List Arith Bool.
Import ListNotations.

Inductive idx := Num (n : nat) | Sym (x : nat).
Inductive failure := UnknownLabel (x : nat) | UnknownLocal (x : nat) | DuplicateLocal (x : nat) | Mismatch (x : nat).
Inductive res (A : Type) := Ok (a : A) | Err (e : failure).
Arguments Ok {A} a. Arguments Err {A} e.
Definition bind {A B} (r : res A) (f : A -> res B) : res B := match r with Ok a => f a | Err e => Err e end.

(** [Instruction], by what is done with its names (names.rs:393-712):
    - [Open]: block, if, loop and try, told apart by [k];
    - [TryTable]: its label and the labels of its catches;
    - [Else] and [End] with the label that may be repeated there;
    - [Branch]: the instructions with labels: br, br_if, br_on_null, br_on_non_null, br_on_cast and its relatives, rethrow (one label),
      br_table (its labels and then its default), resume and its relatives (the labels of the handlers);
    - [Local]: local.get, local.set, local.tee;
    - [Other]: the rest, without labels or locals. *)
Inductive ins :=
| Open (k : nat) (label : option nat) | TryTable (label : option nat) (catches : list idx) | Else (label : option nat) | End (label : option nat)
| Branch (k : nat) (labels : list idx) | Delegate (label : idx) | Local (k : nat) (i : idx) | Other (n : nat).

(** [Namespace] (wast/src/names.rs:5-54). *)
Record namespace := mkNs { ns_names : list (nat * nat); ns_count : nat }.
Fixpoint get (x : nat) (m : list (nat * nat)) : option nat := match m with [] => None | (y, i) :: m => if x =? y then Some i else get x m end.
Definition register (name : option nat) (s : namespace) : res namespace :=
  let index := ns_count s in
  match name with
  | None => Ok (mkNs (ns_names s) (S index))
  | Some x => match get x (ns_names s) with Some _ => Err (DuplicateLocal x) | None => Ok (mkNs ((x, index) :: ns_names s) (S index)) end
  end.
(** Parameters and then locals (names.rs:160-178). *)
Fixpoint register_all (l : list (option nat)) (s : namespace) : res namespace := match l with [] => Ok s | x :: l => bind (register x s) (register_all l) end.
Definition resolve_local (s : namespace) (i : idx) : res idx := match i with Num n => Ok i | Sym x => match get x (ns_names s) with Some n => Ok (Num n) | None => Err (UnknownLocal x) end end.

(** [resolve_label] (names.rs:729-748), the innermost block first.  The cast of the depth to 32 bits is taken to keep it. *)
Fixpoint find_label (i : nat) (x : nat) (bs : list (option nat)) : option nat :=
  match bs with
  | [] => None
  | Some y :: bs => if x =? y then Some i else find_label (S i) x bs
  | None :: bs => find_label (S i) x bs
  end.
Definition resolve_label (bs : list (option nat)) (i : idx) : res idx := match i with Num n => Ok i | Sym x => match find_label 0 x bs with Some n => Ok (Num n) | None => Err (UnknownLabel x) end end.
Fixpoint resolve_labels (bs : list (option nat)) (l : list idx) : res (list idx) :=
  match l with [] => Ok [] | i :: l => bind (resolve_label bs i) (fun i => bind (resolve_labels bs l) (fun l => Ok (i :: l))) end.
(** The label at an [else] or [end] (names.rs:513-543): none is fine, and so is any if no block is open. *)
Definition check_label (label : option nat) (bs : list (option nat)) : res unit :=
  match bs, label with
  | b :: _, Some x => match b with Some y => if x =? y then Ok tt else Err (Mismatch x) | None => Err (Mismatch x) end
  | _, _ => Ok tt
  end.
(** [resolve_instr] (names.rs:393-712): the instruction and the open blocks after it. *)
Definition resolve_instr (s : namespace) (bs : list (option nat)) (i : ins) : res (ins * list (option nat)) :=
  match i with
  | Open _ label => Ok (i, label :: bs)
  | TryTable label catches => bind (resolve_labels bs catches) (fun catches => Ok (TryTable label catches, label :: bs))
  | Else label => bind (check_label label bs) (fun _ => Ok (i, bs))
  | End label => bind (check_label label bs) (fun _ => Ok (i, tl bs))
  | Branch k labels => bind (resolve_labels bs labels) (fun labels => Ok (Branch k labels, bs))
  | Delegate label => bind (resolve_label (tl bs) label) (fun label => Ok (Delegate label, tl bs))
  | Local k x => bind (resolve_local s x) (fun x => Ok (Local k x, bs))
  | Other n => Ok (i, bs)
  end.
(** [ExprResolver::resolve] (names.rs:367-372). *)
Fixpoint resolve_expr (s : namespace) (bs : list (option nat)) (l : list ins) : res (list ins) :=
  match l with [] => Ok [] | i :: l => bind (resolve_instr s bs i) (fun r => bind (resolve_expr s (snd r) l) (fun l => Ok (fst r :: l))) end.
(** A function body (names.rs:152-184). *)
Definition resolve_body (locals : list (option nat)) (body : list ins) : res (list ins) :=
  bind (register_all locals (mkNs [] 0)) (fun s => resolve_expr s [] body).
