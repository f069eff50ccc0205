(** Which tables, globals, element and data segments the readers are expected to accept. *)
From Verif.Base Require Import Prelude.
From Verif.Reader Require Import Model.
From Verif.Types Require Import RefModel CodecModel CodecSpec EntityModel EntitySpec.
From Verif.Instr Require Import ImmModel Ops BodyModel BodySpec.
From Verif.Sections Require Import SegModel.

Section with_features.
Context (ft : features).
Definition table_def_ok (t : e_table_def) : Prop :=
  table_ok (f_memory64 ft) (etd_ty t) /\ match etd_init t with Some e => const_ok ft e | None => True end.
Definition global_def_ok (g : e_global_def) : Prop := global_ok (egd_ty g) /\ const_ok ft (egd_init g).
Definition elems_ok (i : e_elems) : Prop :=
  match i with
  | EFuncs l => Forall (in_u 32) l /\ zlen l < 2 ^ 32
  | EExprs ty l => ref_ok ty /\ Forall (const_ok ft) l /\ zlen l < 2 ^ 32
  end.
(** A segment for a table that is not named can only hold functions or expressions of type [funcref]:
    wasm-encoder names table 0 otherwise. *)
Definition elem_ok (e : e_elem) : Prop :=
  elems_ok (ee_items e) /\
  match ee_mode e with
  | EActive t o => opt_ok (in_u 32) t /\ const_ok ft o /\
      (t = None -> match ee_items e with EExprs ty _ => ty = mkERef true (EAbs false RefModel.Func) | EFuncs _ => True end)
  | _ => True
  end.
Definition data_ok (d : e_data) : Prop :=
  bytes_ok (ed_data d) /\ zlen (ed_data d) < 2 ^ 32 /\
  match ed_mode d with EDActive m o => in_u 32 m /\ const_ok ft o | EDPassive => True end.
End with_features.
