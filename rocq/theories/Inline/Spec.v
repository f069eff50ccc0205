(** What the expansion of inline function types should do. *)
From Coq Require Import List Arith Bool.
Import ListNotations.
From Verif.Inline Require Import Model.

(** The uses of function types, with those that are types of blocks marked. *)
Definition instr_uses (i : instr) : list (bool * use) := match i with Block _ u => [(true, u)] | CallIndirect _ u => [(false, u)] | Other _ => [] end.
Definition expr_uses (e : list instr) : list (bool * use) := flat_map instr_uses e.
Definition opt_uses (e : option (list instr)) : list (bool * use) := match e with Some e => expr_uses e | None => [] end.
Definition field_uses (f : field) : list (bool * use) :=
  match f with
  | FImport l => flat_map (fun x => match x with SUse _ u => [(false, u)] | SOther _ => [] end) l
  | FFunc u b => (false, u) :: opt_uses b
  | FGlobal e | FData e | FTable e => opt_uses e
  | FElem o es => opt_uses o ++ flat_map expr_uses es
  | FTag u => [(false, u)]
  | FType _ _ | FRec _ | FOther _ => []
  end.
Definition uses (fs : list field) : list (bool * use) := flat_map field_uses fs.
(** The types defined on their own, and all the types, in order. *)
Definition single_types (fs : list field) : list (option id * tdef) := flat_map (fun f => match f with FType x d => [(x, d)] | _ => [] end) fs.
Definition all_types (fs : list field) : list (option id * tdef) := flat_map (fun f => match f with FType x d => [(x, d)] | FRec l => l | _ => [] end) fs.
(** The signature of a use: nothing written means no parameters and no results. *)
Definition signature (u : use) : fty := match u_inline u with Some k => k | None => mkF [] [] end.
(** A block needs no type if it has no parameters and at most one result. *)
Definition simple (k : fty) : Prop := f_params k = [] /\ length (f_results k) <= 1.
(** The first type with signature [k] is [d], with the identifier [x]. *)
Definition first_with (fs : list field) (k : fty) (x : id) (d : tdef) : Prop :=
  exists a b, single_types fs = a ++ (Some x, d) :: b /\ d_kind d = KFunc k /\ forall e, In e a -> d_kind (snd e) <> KFunc k.
(** A use of the source and what it becomes, in the fields [fs] after the expansion. *)
Definition expanded (fs : list field) (a b : bool * use) : Prop :=
  fst b = fst a /\
  match u_index (snd a) with
  | Some _ => snd b = snd a
  | None =>
    (fst a = true /\ simple (signature (snd a)) /\ snd b = mkUse None (Some (signature (snd a)))) \/
    (~ (fst a = true /\ simple (signature (snd a))) /\
     exists x d, snd b = mkUse (Some (Sym x)) (u_inline (snd a)) /\ first_with fs (signature (snd a)) x d)
  end.
(** A use for which there must be a type. *)
Definition needs (a : bool * use) : Prop := u_index (snd a) = None /\ ~ (fst a = true /\ simple (signature (snd a))).
(** Fields without their uses of function types and without generated identifiers. *)
Definition no_use : use := mkUse None None.
Definition bare_instr (i : instr) : instr := match i with Block k _ => Block k no_use | CallIndirect k _ => CallIndirect k no_use | Other n => Other n end.
Definition bare_id (x : option id) : option id := match x with Some (Src n) => Some (Src n) | _ => None end.
Definition bare (f : field) : field :=
  match f with
  | FType x d => FType (bare_id x) d
  | FRec l => FRec l
  | FImport l => FImport (map (fun x => match x with SUse k _ => SUse k no_use | SOther n => SOther n end) l)
  | FFunc _ b => FFunc no_use (option_map (map bare_instr) b)
  | FGlobal e => FGlobal (option_map (map bare_instr) e)
  | FData e => FData (option_map (map bare_instr) e)
  | FElem o es => FElem (option_map (map bare_instr) o) (map (map bare_instr) es)
  | FTag _ => FTag no_use
  | FTable e => FTable (option_map (map bare_instr) e)
  | FOther n => FOther n
  end.
(** The identifiers of types, and a module whose source has no generated ones and names each type once. *)
Definition type_ids (fs : list field) : list id := flat_map (fun e => match fst e with Some x => [x] | None => [] end) (all_types fs).
Definition source (fs : list field) : Prop := NoDup (type_ids fs) /\ forall n, ~ In (Gen n) (type_ids fs).
(** The types an inline signature stands for in the specification of the text format: a final function type without supertypes, not shared. *)
Definition plain (d : tdef) : Prop := d_shared d = false /\ d_parent d = None /\ d_descriptor d = None /\ d_describes d = None /\ d_final d <> Some false.
