(** What a user of wasmparser finds in the items of a section when everything that a reader leaves for
    later -- constant expressions, the labels of [br_table], lists of items, compact groups of imports -- is
    read too.  Positions in the input are not part of it.  This is the measure by which a re-encoded module is
    compared with the original: it mentions neither wasm-encoder nor the translation. *)
From Verif.Base Require Import Prelude.
From Verif.Reader Require Import Model.
From Verif.Types Require Import RefModel CodecModel EntityModel.
From Verif.Instr Require Import ImmModel Ops Visit BodyModel.
From Verif.Sections Require Import SegModel.

Fixpoint all_seen {A B} (f : A -> option B) (l : list A) : option (list B) :=
  match l with
  | [] => Some []
  | a :: l => match f a, all_seen f l with Some b, Some t => Some (b :: t) | _, _ => None end
  end.
Definition seen_ok {A} (r : res A) : option A := match r with Ok a => Some a | Err _ => None end.
Definition ops_bind {A B} (o : option A) (f : A -> option B) : option B := match o with Some a => f a | None => None end.

(** An operator; the labels of [br_table], which are kept as bytes, are read ([BrTable::targets],
    [BrTable::default], [BrTable::len]: operators.rs:1102-1160). *)
Definition seen : Type := operator * list Z.
Definition see_op (o : operator) : option seen :=
  match o with
  | Op_BrTable b => option_map (fun l => (Op_BrTable (mkPBr [] (pb_cnt b) (pb_default b)), l)) (seen_ok (br_targets b))
  | _ => Some (o, [])
  end.
(** [ConstExpr::get_operators_reader] (init.rs:39-41) and everything it reads. *)
Definition see_const (ft : features) (bytes : list Z) : option (list seen) :=
  match read_expr (new_reader ft bytes 0) with Ok (ops, _) => all_seen see_op ops | Err _ => None end.
Definition see_opt {A B} (f : A -> option B) (o : option A) : option (option B) :=
  match o with None => Some None | Some a => option_map Some (f a) end.

Definition see_table_def (ft : features) (t : p_table_def) : option (table_ty Z * option (list seen)) :=
  option_map (fun i => (ptd_ty t, i)) (see_opt (see_const ft) (ptd_init t)).
Definition see_global_def (ft : features) (g : p_global_def) : option (global_ty p_val * list seen) :=
  option_map (fun i => (pgd_ty g, i)) (see_const ft (pgd_init g)).
Inductive s_elem_kind := SKPassive | SKActive (table : option Z) (offset : list seen) | SKDeclared.
Inductive s_elem_items := SIFuncs (l : list Z) | SIExprs (ty : Z) (l : list (list seen)).
Definition see_elem_kind (ft : features) (k : p_elem_kind) : option s_elem_kind :=
  match k with
  | PKPassive => Some SKPassive
  | PKDeclared => Some SKDeclared
  | PKActive t o => option_map (SKActive t) (see_const ft o)
  end.
Definition see_elem_items (ft : features) (i : p_elem_items) : option s_elem_items :=
  match i with
  | PIFuncs b => option_map SIFuncs (seen_ok (section_items read_var_u32 ft 0 b))
  | PIExprs ty b => option_map (SIExprs ty) (ops_bind (seen_ok (section_items read_const ft 0 b)) (all_seen (see_const ft)))
  end.
Definition see_elem (ft : features) (e : p_elem) : option (s_elem_kind * s_elem_items) :=
  ops_bind (see_elem_kind ft (pe_kind e)) (fun k => option_map (fun i => (k, i)) (see_elem_items ft (pe_items e))).
Inductive s_data_kind := SDPassive | SDActive (memory : Z) (offset : list seen).
Definition see_data (ft : features) (d : p_data) : option (s_data_kind * list Z) :=
  option_map (fun k => (k, pd_data d))
    (match pd_kind d with PDPassive => Some SDPassive | PDActive m o => option_map (SDActive m) (see_const ft o) end).
(** A group of imports, with the items of a compact one. *)
Inductive s_imports :=
| SSingle (module name : list Z) (ty : p_entity)
| SCompact1 (module : list Z) (items : list (list Z * p_entity))
| SCompact2 (module : list Z) (ty : p_entity) (names : list (list Z)).
Definition see_imports (ft : features) (i : p_imports) : option s_imports :=
  match i with
  | QSingle m n ty => Some (SSingle m n ty)
  | QCompact1 m b => option_map (SCompact1 m) (seen_ok (section_items read_item ft 0 b))
  | QCompact2 m ty b => option_map (SCompact2 m ty) (seen_ok (section_items read_string ft 0 b))
  end.
(** A function body: its locals and its operators. *)
Definition see_body (ft : features) (bytes : list Z) : option (list (Z * p_val) * list seen) :=
  ops_bind (seen_ok (body_locals ft 0 bytes)) (fun ls => ops_bind (seen_ok (body_ops ft 0 bytes)) (fun ops => option_map (fun s => (ls, s)) (all_seen see_op ops))).
