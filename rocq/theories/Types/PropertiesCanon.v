(** Properties C21, C40 and C41: subtyping and the interning of recursion groups. *)
From Verif.Base Require Import Prelude.
From Verif.Types Require Import CanonModel CanonSpec CanonLemmas CanonTop CanonPanic.

(** C21.  After any accepted history the subtype tests answer, and say what the specification's
    subtype relation says. *)
Theorem C21_correct : forall h w, reached h w -> let T := st_types (w_store w) in
  (forall a b, Forall (defined T) (refs_val (VRef a)) -> Forall (defined T) (refs_val (VRef b)) -> decides (ref_is_subtype (w_store w) a b) (ref_sub T a b)) /\
  (forall a b, Forall (defined T) (refs_val a) -> Forall (defined T) (refs_val b) -> decides (val_is_subtype (w_store w) a b) (val_sub T a b)).
Proof. exact subtype_correct. Qed.
Print Assumptions C21_correct.
(** The test is a partial order on the types in use. *)
Theorem C21_order : forall h w, reached h w -> let T := st_types (w_store w) in
  let ok v := Forall (defined T) (refs_val v) in let le a b := val_is_subtype (w_store w) a b = Done true in
  (forall a, le a a) /\
  (forall a b c, ok a -> ok b -> ok c -> le a b -> le b c -> le a c) /\
  (forall a b, ok a -> ok b -> le a b -> le b a -> a = b).
Proof. exact subtype_order. Qed.
Print Assumptions C21_order.
(** The top type is the greatest of the types above a given one. *)
Theorem C21_top : forall h w hp, reached h w -> let T := st_types (w_store w) in Forall (defined T) (refs_heap hp) ->
  exists top, top_type (w_store w) hp = Done top /\ heap_sub T hp top /\ forall other, heap_sub T hp other -> heap_sub T other top.
Proof. exact top_correct. Qed.
Print Assumptions C21_top.
(** Every stored type is valid, so declared subtypes, however far apart, match structurally. *)
Theorem C21_valid : forall h w, reached h w -> forall i t, is_type (st_types (w_store w)) i t -> valid_type (st_types (w_store w)) i t.
Proof. exact all_valid. Qed.
Print Assumptions C21_valid.
Theorem C21_declared : forall h w, reached h w -> let T := st_types (w_store w) in forall i j t u,
  heap_sub T (HC i) (HC j) -> is_type T i t -> is_type T j u -> comp_sub T (s_comp t) (s_comp u).
Proof. exact declared_match. Qed.
Print Assumptions C21_declared.

(** C40.  Two types of any scopes have the same id exactly when they mean the same. *)
Theorem C40_ids : forall h w, reached h w -> let m := meanings no_meanings h in
  (forall k, zlen (w_scope w k) = zlen (m k)) /\
  forall k1 i1 id1 k2 i2 id2, nthz (w_scope w k1) i1 = Some id1 -> nthz (w_scope w k2) i2 = Some id2 ->
    (id1 = id2 <-> nthz (m k1) i1 = nthz (m k2) i2).
Proof. exact ids_meaning. Qed.
Print Assumptions C40_ids.
(** A group not yet among the types is accepted exactly when it is in scope, valid and within the limit. *)
Theorem C40_accepts : forall h w k g, reached h w -> let T := st_types (w_store w) in let ids := w_scope w k in
  zlen T + zlen g <= 2 ^ 20 -> (~ exists pre post, T = pre ++ placed ids (zlen pre) g ++ post) ->
  ((exists w', step w (AddGroup k g) = Done w') <->
   zlen ids + zlen g <= 1000000 /\ group_in_scope (zlen ids) g /\
   let T' := T ++ placed ids (zlen T) g in forall i t, zlen T <= i -> is_type T' i t -> valid_type T' i t).
Proof. exact accepted_groups. Qed.
Print Assumptions C40_accepts.
(** A group with a known meaning is accepted again and adds no type. *)
Theorem C40_known : forall h w k g, reached h w -> let m := meanings no_meanings h in let ids := w_scope w k in
  zlen (st_types (w_store w)) + zlen g <= 2 ^ 20 -> zlen ids + zlen g <= 1000000 -> group_in_scope (zlen ids) g ->
  (exists k' i' q, nthz (m k') i' = Some (Outside (group_meaning (m k) g) q)) ->
  exists w', step w (AddGroup k g) = Done w' /\ w_store w' = w_store w.
Proof. exact known_groups. Qed.
Print Assumptions C40_known.

(** C41.  Adding a group never panics: false.  After a million types in one module and 48576 in the
    next, a valid one-type group that refers to itself panics. *)
Theorem C41_refuted : exists h w k g, reached h w /\ step w (AddGroup k g) = Panicked /\
  zlen (w_scope w k) + zlen g <= 1000000 /\ group_in_scope (zlen (w_scope w k)) g /\
  let T := st_types (w_store w) ++ placed (w_scope w k) (zlen (st_types (w_store w))) g in
  forall i t, is_type T i t -> valid_type T i t.
Proof. exact interning_panics. Qed.
Print Assumptions C41_refuted.
(** It holds as long as the types of all the scopes together are at most 2^20. *)
Theorem C41_partial : forall h w e, reached h w -> zlen (st_types (w_store w)) + new_types e <= 2 ^ 20 -> settled (step w e).
Proof. exact no_panic. Qed.
Print Assumptions C41_partial.

(** A case: an open structure, a mutually recursive pair one of which extends it; the same again in
    another module after an unrelated type; an alias; a function type from a component. *)
Definition nullref (i : Z) : fty Z := mkF (SVal (VRef (mkR true (HC i)))) true.
Definition open_struct (sup : option Z) fs : subty Z := mkS false sup (mkC (IStruct fs) false None None).
Definition i64f : fty Z := mkF (SVal VI64) false.
Definition case_history : list event :=
  [AddGroup 0 [open_struct None [i64f]];
   AddGroup 0 [open_struct (Some 0) [i64f; nullref 2]; open_struct None [nullref 1]];
   HostFunc [NI32] [NF64];
   AddGroup 1 [mkS true None (mkC (IArray (mkF SI8 true)) false None None)];
   AddGroup 1 [open_struct None [i64f]];
   AddGroup 1 [open_struct (Some 1) [i64f; nullref 3]; open_struct None [nullref 2]];
   Alias 2 1 3;
   AddGroup 2 [open_struct None [nullref 0; nullref 1]]].
Example case_runs : exists w, reached case_history w /\
  w_scope w 0 = [0; 1; 2] /\ w_scope w 1 = [4; 0; 1; 2] /\ w_scope w 2 = [2; 5] /\ zlen (st_types (w_store w)) = 6 /\
  val_is_subtype (w_store w) (VRef (mkR false (HX 1))) (VRef (mkR true (HC 0))) = Done true /\
  val_is_subtype (w_store w) (VRef (mkR false (HC 0))) (VRef (mkR true (HC 1))) = Done false /\
  top_type (w_store w) (HC 3) = Done (HA false Func).
Proof. eexists. split; [vm_compute; reflexivity |]. vm_compute. repeat split. Qed.
Example case_refused : exists w, reached [AddGroup 0 [open_struct None [i64f]]] w /\
  step w (AddGroup 0 [open_struct (Some 0) [nullref 1]]) = Refused "sub type must match super type".
Proof. eexists. split; [vm_compute; reflexivity |]. vm_compute. reflexivity. Qed.
