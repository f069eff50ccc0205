(** Vocabulary for the claims about packed reference types. *)
From Verif.Base Require Import Prelude.
From Verif.Types Require Import RefModel.

Definition uidx_num (u : uidx) : Z := match u with UModule i | URecGroup i | UId i => i end.
(** Any [u32] index. *)
Definition u32_uidx (u : uidx) : Prop := in_u 32 (uidx_num u).
Definition u32_heap (h : heap_type) : Prop := match h with HAbstract _ _ => True | HConcrete u | HExact u => u32_uidx u end.
(** Indices within the crate's limit. *)
Definition fits (h : heap_type) : Prop := match h with HAbstract _ _ => True | HConcrete u | HExact u => uidx_num u < 2 ^ 20 end.
Definition aht_eq_dec (a b : aht) : {a = b} + {a <> b}.
Proof. decide equality. Defined.
