(** Flattening as CanonicalABI.md prescribes it, for pointers of [p] bytes. *)
From Verif.Base Require Import Prelude.
From Verif.Wit Require Import LayoutModel Spec FlatModel.

Inductive core := I32 | I64 | F32 | F64.
Definition core_eqb (a b : core) : bool :=
  match a, b with I32, I32 | I64, I64 | F32, F32 | F64, F64 => true | _, _ => false end.
Definition core_ptr (p : Z) : core := if p =? 8 then I64 else I32.

(** [join] of the document. *)
Definition core_join (a b : core) : core :=
  if core_eqb a b then a
  else match a, b with I32, F32 | F32, I32 => I32 | _, _ => I64 end.

(** The loop of [flatten_variant]: merge one case into the list so far. *)
Fixpoint merge_case {A} (j : A -> A -> A) (acc l : list A) : list A :=
  match acc, l with
  | acc, [] => acc
  | [], l => l
  | a :: acc, x :: l => j a x :: merge_case j acc l
  end.

Definition flatten_prim (p : Z) (t : prim) : list core :=
  match t with
  | PU64 | PS64 => [I64]
  | PF32 => [F32]
  | PF64 => [F64]
  | PString => [core_ptr p; core_ptr p]
  | _ => [I32]
  end.
Fixpoint flatten (p : Z) (v : vt) : list core :=
  match v with
  | VPrim t => flatten_prim p t
  | VList => [core_ptr p; core_ptr p]
  | VFixed t n => List.concat (repeat (flatten p t) (Z.to_nat n))
  | VRecord fs => List.concat (map (flatten p) fs)
  | VVariant cs =>
      I32 :: fold_left (fun acc c => merge_case core_join acc (match c with Some t => flatten p t | None => [] end)) cs []
  | VFlags n => repeat I32 (Z.to_nat ((n + 31) / 32))
  | VHandle => [I32]
  end.
Definition flatten_list (p : Z) (l : list vt) : list core := List.concat (map (flatten p) l).

(** [flatten_functype]: the core signature, whether the parameters are passed in
    memory, and whether there is a return pointer.  Lowering is what imports do,
    lifting what exports do; [GuestExportAsync] is the callback variant. *)
Definition flatten_func (p : Z) (v : variant) (params : list vt) (result : option vt)
  : (list core * list core) * (bool * bool) :=
  let fp := flatten_list p params in
  let fr := match result with Some t => flatten p t | None => [] end in
  let max := match v with GuestImportAsync => 4 | _ => 16 end in
  let spill := max <? zlen fp in
  let fp := if spill then [core_ptr p] else fp in
  match v with
  | GuestImport => if 1 <? zlen fr then ((fp ++ [core_ptr p], []), (spill, true)) else ((fp, fr), (spill, false))
  | GuestExport => if 1 <? zlen fr then ((fp, [core_ptr p]), (spill, true)) else ((fp, fr), (spill, false))
  | GuestImportAsync => if 0 <? zlen fr then ((fp ++ [core_ptr p], [I32]), (spill, true)) else ((fp, [I32]), (spill, false))
  | GuestExportAsync => ((fp, [I32]), (spill, false))
  | GuestExportAsyncStackful => ((fp, []), (spill, false))
  end.

(** What the symbolic types stand for (documentation of [WasmType], abi.rs:36-57). *)
Definition lower (p : Z) (t : wt) : core :=
  match t with
  | WI32 => I32 | WI64 | WPointerOrI64 => I64 | WF32 => F32 | WF64 => F64
  | WPointer | WLength => core_ptr p
  end.

(** The component model has no empty records, tuples, flags or fixed-length lists. *)
Fixpoint inhabited (v : vt) : Prop :=
  match v with
  | VFixed t n => 0 < n /\ inhabited t
  | VRecord fs => fs <> [] /\ fold_right (fun f P => inhabited f /\ P) True fs
  | VFlags n => 0 < n
  | _ => True
  end.
