(** Which types the readers are expected to accept: those within the published
    implementation limits (crates/wasmparser/src/limits.rs). *)
From Verif.Base Require Import Prelude.
From Verif.Types Require Import RefModel CodecModel.

(** A type index as a heap type: below 2^20; an exact one may be any [u32] outside
    a reference type. *)
Definition heap_ok (h : e_heap) : Prop :=
  match h with EAbs _ _ => True | EConcrete i => 0 <= i < 2 ^ 20 | EExact i => in_u 32 i end.
Definition ref_ok (r : e_ref) : Prop :=
  match er_heap r with EAbs _ _ => True | EConcrete i | EExact i => 0 <= i < 2 ^ 20 end.
Definition val_ok (v : e_val) : Prop := match v with ERef r => ref_ok r | _ => True end.
Definition storage_ok (s : e_storage) : Prop := match s with EVal v => val_ok v | _ => True end.
Definition field_ok (f : e_field) : Prop := storage_ok (ef_elem f).
Definition inner_ok (i : e_inner) : Prop :=
  match i with
  | EFunc ps rs => Forall val_ok ps /\ Forall val_ok rs /\ zlen ps <= 1000 /\ zlen rs <= 1000
  | EArray f => field_ok f
  | EStruct fs => Forall field_ok fs /\ zlen fs <= 10000
  | ECont i => 0 <= i < 2 ^ 20
  end.
Definition opt_idx_ok (o : option Z) : Prop := match o with None => True | Some i => 0 <= i < 2 ^ 20 end.
Definition comp_ok (c : e_comp) : Prop := inner_ok (ec_inner c) /\ opt_idx_ok (ec_descriptor c) /\ opt_idx_ok (ec_describes c).
Definition sub_ok (s : e_sub) : Prop := opt_idx_ok (es_super s) /\ comp_ok (es_comp s).
Definition rec_ok (r : e_rec) : Prop := match r with ERec l => Forall sub_ok l /\ zlen l <= 1000000 | ESingle s => sub_ok s end.
