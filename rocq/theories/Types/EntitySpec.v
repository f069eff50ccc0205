(** Which entity types the readers are expected to accept. *)
From Verif.Base Require Import Prelude Utf8.
From Verif.Reader Require Import Model.
From Verif.Types Require Import RefModel CodecModel CodecSpec EntityModel.

(** A string a module may contain: UTF-8, within the published limit. *)
Definition name_ok (s : list Z) : Prop := bytes_ok s /\ utf8_valid s = true /\ zlen s <= 100000.
Section limits.
(** Is the memory64 proposal enabled? *)
Context (m64 : bool).
Definition with_m64 (ft : features) : Prop := f_memory64 ft = m64.
(** A bound is a [u64] with the memory64 proposal, a [u32] without it. *)
Definition bound_ok (v : Z) : Prop := in_u (if m64 then 64 else 32) v.
Definition opt_ok (P : Z -> Prop) (o : option Z) : Prop := match o with Some v => P v | None => True end.
Definition table_ok (t : table_ty e_ref) : Prop := ref_ok (t_elem t) /\ bound_ok (t_min t) /\ opt_ok bound_ok (t_max t).
Definition memory_ok (m : memory_ty) : Prop := bound_ok (m_min m) /\ opt_ok bound_ok (m_max m) /\ opt_ok (fun p => 0 <= p < 64) (m_page m).
Definition global_ok (g : global_ty e_val) : Prop := val_ok (g_val g).
Definition entity_ok (n : e_entity) : Prop :=
  match n with
  | NFunc i | NFuncExact i | NTag i => in_u 32 i
  | NTable t => table_ok t | NMemory m => memory_ok m | NGlobal g => global_ok g
  end.
Definition export_ok (x : export) : Prop := name_ok (x_name x) /\ in_u 32 (x_index x).
Definition item_ok (x : item) : Prop := name_ok (i_name x) /\ entity_ok (i_ty x).
Definition imports_ok (i : e_imports) : Prop :=
  match i with
  | ISingle m n ty => name_ok m /\ name_ok n /\ entity_ok ty
  | ICompact1 m items => name_ok m /\ Forall item_ok items /\ zlen items < 2 ^ 32
  | ICompact2 m ty names => name_ok m /\ entity_ok ty /\ Forall name_ok names /\ zlen names < 2 ^ 32
  end.
End limits.
(** The imports a group stands for, in order. *)
Definition members (i : e_imports) : list (list Z * list Z * e_entity) :=
  match i with
  | ISingle m n ty => [(m, n, ty)]
  | ICompact1 m items => map (fun x => (m, i_name x, i_ty x)) items
  | ICompact2 m ty names => map (fun n => (m, n, ty)) names
  end.
