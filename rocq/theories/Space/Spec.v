(** The index spaces of a text module, and what its references mean. *)
From Coq Require Import List Arith Bool.
Import ListNotations.
From Verif.Space Require Import Model.

(** The items of kind [k] in the order of the text: the identifier, whether it is imported, and the content. *)
Definition item : Type := option id * (bool * nat).
Definition field_items (k : kind) (f : field) : list item :=
  match f with
  | FImport l => flat_map (fun e => if kind_dec k (fst (fst e)) then [(snd (fst e), (true, snd e))] else []) l
  | FItem k' x _ b n => if kind_dec k k' then [(x, (match b with Imported => true | _ => false end, n))] else []
  | _ => []
  end.
Definition items (k : kind) (fs : list field) : list item := flat_map (field_items k) fs.
(** What is asked for: exports, start functions and segments, each of an item by its index or name or, if written inline, of the item it is
    written at. *)
Inductive target := By (i : idx) | At (p : nat).
Inductive request := RExport (name : nat) (k : kind) (t : target) | RStart (t : target) | RSegment (k : kind) (t : option target) (p : nat).
(** [off k] items of kind [k] come before. *)
Definition field_requests (off : kind -> nat) (f : field) : list request :=
  match f with
  | FItem k _ es b _ => map (fun e => RExport e k (At (off k))) es ++ match b with Inlined p => [RSegment k (Some (At (off k))) p] | _ => [] end
  | FExport e k i => [RExport e k (By i)]
  | FStart i => [RStart (By i)]
  | FSegment k i p => [RSegment k (option_map By i) p]
  | FImport _ | FOther _ => []
  end.
Fixpoint requests (off : kind -> nat) (fs : list field) : list request :=
  match fs with [] => [] | f :: fs => field_requests off f ++ requests (fun k => off k + length (field_items k f)) fs end.
(** The item meant by a target is number [n] of its kind: a name is that of the only item called so. *)
Definition names (l : list item) (x : id) (n : nat) : Prop := forall m, option_map fst (nth_error l m) = Some (Some x) <-> m = n.
Definition meant (fs : list field) (k : kind) (t : target) (n : nat) : Prop :=
  match t with At p => n = p | By (Num m) => n = m | By (Sym x) => names (items k fs) x n end.
(** A request and what becomes of it. *)
Inductive met (fs : list field) : request -> request -> Prop :=
| MExport : forall e k t n, meant fs k t n -> met fs (RExport e k t) (RExport e k (By (Num n)))
| MStart : forall t n, meant fs Func t n -> met fs (RStart t) (RStart (By (Num n)))
| MSegment : forall k t n p, meant fs k t n -> met fs (RSegment k (Some t) p) (RSegment k (Some (By (Num n))) p)
| MPassive : forall k p, met fs (RSegment k None p) (RSegment k None p).
(** The text has no generated names. *)
Definition source_idx (i : idx) : Prop := match i with Sym (Gen _) => False | _ => True end.
Definition source_field (f : field) : Prop := match f with FExport _ _ i | FStart i | FSegment _ (Some i) _ => source_idx i | _ => True end.
Definition source (fs : list field) : Prop := Forall source_field fs.
(** No imported item comes after a defined one. *)
Fixpoint no_import (l : list item) : Prop := match l with [] => True | e :: l => fst (snd e) = false /\ no_import l end.
Fixpoint imports_first (l : list item) : Prop := match l with [] => True | e :: r => if fst (snd e) then imports_first r else no_import r end.
(** When a text is accepted: an import does not come after a definition other than of a tag, the names of each kind are distinct, and every name that
    is used is that of an item. *)
Definition is_import (f : field) : Prop := match f with FImport _ => True | FItem _ _ _ Imported _ => True | _ => False end.
Definition is_definition (f : field) : Prop := match f with FItem k _ _ Imported _ => False | FItem k _ _ _ _ => k <> Tag | _ => False end.
Definition ordered (fs : list field) : Prop := forall a f b g, fs = a ++ f :: b -> is_import f -> In g a -> ~ is_definition g.
Definition idl (l : list item) : list id := flat_map (fun e => match fst e with Some x => [x] | None => [] end) l.
Definition ids (k : kind) (fs : list field) : list id := idl (items k fs).
Definition known (l : kind -> list id) (f : field) : Prop :=
  match f with
  | FExport _ k (Sym x) => In x (l k)
  | FStart (Sym x) => In x (l Func)
  | FSegment k (Some (Sym x)) _ => In x (l k)
  | _ => True
  end.
Definition acceptable (fs : list field) : Prop := ordered fs /\ (forall k, NoDup (ids k fs)) /\ Forall (known (fun k => ids k fs)) fs.
(** The names of items are not generated either. *)
Definition plain_ids (fs : list field) : Prop := forall k n, ~ In (Gen n) (ids k fs).
