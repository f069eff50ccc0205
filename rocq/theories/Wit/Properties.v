(** C29-C32: sizes, layout and flattening of WIT types.

    Type definitions are a list [defs]; [expand n defs t = Some v] says that [t]
    stands for the tree [v]; [allowed v] that the component model allows [v] and its
    size stays below [2 ^ 60] bytes.  The rules of the canonical ABI are in Spec.v
    and FlatSpec.v. *)
From Coq Require Import Permutation.
From Verif.Base Require Import Prelude.
From Verif.Wit Require Import LayoutModel Spec LayoutProofs LayoutTop FlatModel FlatSpec FlatProofs FlatTop.

(** The example document: record { u8, string, option<u64> }, variant { a(f32), b(own<r>), c(list<u8>), d }. *)
Definition sample : list kind :=
  [KOption (TPrim PU64); KRecord [TPrim PU8; TPrim PString; TId 0]; KHandle; KList (TPrim PU8);
   KVariant [Some (TPrim PF32); Some (TId 2); Some (TId 3); None]; KFlags 40; KFixed (TId 1) 3; KTuple [TId 4; TId 5; TId 6]].

(** C29: the table computed for the definitions gives every type in it the
    prescribed size and alignment, for both pointer widths. *)
Theorem C29_size_and_alignment : forall defs m n t v e,
  fill defs = Some m -> expand n defs t = Some v -> allowed v -> lookup m t = Some e ->
  size_wasm32 (i_size e) = elem_size 4 v /\ align_wasm32 (i_align e) = alignment 4 v /\
  size_wasm64 (i_size e) = elem_size 8 v /\ align_wasm64 (i_align e) = alignment 8 v.
Proof. exact size_align_ok. Qed.
Print Assumptions C29_size_and_alignment.
Example C29_case : exists m v e, fill sample = Some m /\ expand 9 sample (TId 7) = Some v /\ allowed v /\
  lookup m (TId 7) = Some e /\ size_wasm32 (i_size e) = 120 /\ size_wasm64 (i_size e) = 152.
Proof.
  do 3 eexists. split; [vm_compute; reflexivity|]. split; [vm_compute; reflexivity|].
  split; [vm_compute; repeat split; congruence|]. split; [vm_compute; reflexivity|]. split; vm_compute; reflexivity.
Qed.

(** C29: the table is computed without a panic, with an entry for each definition. *)
Theorem C29_never_panics : forall defs, in_dependency_order defs ->
  (forall i k, nth_error defs i = Some k ->
     k = KResource \/ exists n v, expand n defs (TId i) = Some v /\ allowed v) ->
  exists m, fill defs = Some m /\ List.length m = List.length defs.
Proof. exact fill_total. Qed.
Print Assumptions C29_never_panics.
Example C29_panics_case : in_dependency_order sample /\
  (forall i k, nth_error sample i = Some k -> k = KResource \/ exists n v, expand n sample (TId i) = Some v /\ allowed v).
Proof.
  split.
  - intros i k H. do 8 (destruct i as [|i]; [injection H as <-; repeat constructor|]). destruct i; discriminate.
  - intros i k H. right. exists 9%nat.
    do 8 (destruct i as [|i]; [eexists; split; [vm_compute; reflexivity|vm_compute; repeat split; congruence]|]). destruct i; discriminate.
Qed.

(** C30: fields are placed in order, each aligned, after the end of the one before
    with the least padding, and the last one ends within the record. *)
Theorem C30_field_offsets : forall defs m n fields vs offs,
  fill defs = Some m -> all_some (map (expand n defs) fields) = Some vs -> allowed (VRecord vs) ->
  field_offsets m fields = Some offs ->
  laid_out 4 0 vs (map size_wasm32 offs) (elem_size 4 (VRecord vs)) /\
  laid_out 8 0 vs (map size_wasm64 offs) (elem_size 8 (VRecord vs)).
Proof. exact field_offsets_ok. Qed.
Print Assumptions C30_field_offsets.
Example C30_fields_case : exists m vs offs, fill sample = Some m /\
  all_some (map (expand 9 sample) [TPrim PU8; TPrim PString; TId 0]) = Some vs /\ allowed (VRecord vs) /\
  field_offsets m [TPrim PU8; TPrim PString; TId 0] = Some offs /\ map size_wasm32 offs = [0; 4; 16] /\ map size_wasm64 offs = [0; 8; 24].
Proof.
  do 3 eexists. split; [vm_compute; reflexivity|]. split; [vm_compute; reflexivity|].
  split; [vm_compute; repeat split; congruence|]. split; [vm_compute; reflexivity|]. split; vm_compute; reflexivity.
Qed.

(** C30: the payload of a variant starts where the ABI says, past the discriminant,
    aligned for every case, and every case ends within the variant. *)
Theorem C30_payload_offset : forall defs m n cases cs tag o,
  fill defs = Some m -> all_some (map (flip_opt (expand n defs)) cases) = Some cs -> allowed (VVariant cs) ->
  discriminant_type (zlen cases) = Some tag -> payload_offset m tag cases = Some o ->
  forall p off, (p, off) = (4, size_wasm32 o) \/ (p, off) = (8, size_wasm64 o) ->
    off = round_up (discriminant_bytes (zlen cs)) (case_alignment p cs) /\
    discriminant_bytes (zlen cs) <= off /\
    forall t, In (Some t) cs -> off mod alignment p t = 0 /\ off + elem_size p t <= elem_size p (VVariant cs).
Proof. exact payload_offset_ok. Qed.
Print Assumptions C30_payload_offset.
Example C30_payload_case :
  let cases := [Some (TPrim PF32); Some (TId 2); Some (TId 3); None] in
  exists m cs tag o, fill sample = Some m /\ all_some (map (flip_opt (expand 9 sample)) cases) = Some cs /\
  allowed (VVariant cs) /\ discriminant_type (zlen cases) = Some tag /\ payload_offset m tag cases = Some o /\
  size_wasm32 o = 4 /\ size_wasm64 o = 8.
Proof.
  cbv zeta. do 4 eexists. split; [vm_compute; reflexivity|]. split; [vm_compute; reflexivity|].
  split; [vm_compute; repeat split; congruence|]. split; [vm_compute; reflexivity|].
  split; [vm_compute; reflexivity|]. split; vm_compute; reflexivity.
Qed.

(** C31: pushing a type onto an empty buffer of [k] slots succeeds exactly if its
    flattening has at most [k] core types, and then yields that flattening. *)
Theorem C31_push_flat : forall defs n t v k, expand n defs t = Some v -> allowed v ->
  exists ok r, push_flat n defs t (flat_new (repeat WI32 k)) = Some (ok, r) /\
    forall p, p = 4 \/ p = 8 ->
      (ok = true <-> (List.length (flatten p v) <= k)%nat) /\ f_overflow r = negb ok /\
      (ok = true -> map (lower p) (to_vec r) = flatten p v).
Proof. exact push_flat_top. Qed.
Print Assumptions C31_push_flat.
Example C31_push_case : exists v, expand 9 sample (TId 7) = Some v /\ allowed v /\
  flatten 4 v = [I32; I32; I32; I32; I32; I32; I32; I32; I32; I64; I32; I32; I32; I32; I64; I32; I32; I32; I32; I64].
Proof. eexists. split; [vm_compute; reflexivity|]. split; [vm_compute; repeat split; congruence|]. vm_compute. reflexivity. Qed.

(** C31: [wasm_signature] does not panic and gives the signature of
    [flatten_functype].  A method's first parameter is a handle.  For asynchronous
    imports the result has no empty records.  An exported method takes the resource's
    representation as a [Pointer], so with 64-bit pointers it is left out. *)
Theorem C31_wasm_signature : forall defs n va f vs rv,
  Forall2 (fun t v => expand n defs t = Some v) (fn_params f) vs -> Forall allowed vs ->
  match fn_result f, rv with
  | Some t, Some v => expand n defs t = Some v /\ allowed v
  | None, None => True
  | _, _ => False
  end ->
  (fn_method f = true -> exists vs', vs = VHandle :: vs') ->
  (va = GuestImportAsync -> forall t, rv = Some t -> inhabited t) ->
  exists s, wasm_signature n defs va f = Some s /\
    forall p, p = 4 \/ p = 8 -> (p = 8 -> fn_method f && is_export va = false) ->
      ((map (lower p) (sg_params s), map (lower p) (sg_results s)), (sg_indirect s, sg_retptr s)) = flatten_func p va vs rv.
Proof. exact signature_ok. Qed.
Print Assumptions C31_wasm_signature.
Example C31_signature_case : exists vs v,
  let f := mkFunc true [TId 2; TId 4] (Some (TId 1)) in
  Forall2 (fun t v => expand 9 sample t = Some v) (fn_params f) vs /\ Forall allowed vs /\
  expand 9 sample (TId 1) = Some v /\ allowed v /\ (exists vs', vs = VHandle :: vs') /\ inhabited v /\
  flatten_func 4 GuestImportAsync vs (Some v) = (([I32; I32; I32; I32; I32], [I32]), (false, true)).
Proof.
  do 2 eexists. cbv zeta. split; [repeat constructor; vm_compute; reflexivity|]. split; [repeat constructor; vm_compute; repeat split; congruence|].
  split; [vm_compute; reflexivity|]. split; [vm_compute; repeat split; congruence|]. split; [eexists; reflexivity|].
  split; [vm_compute; repeat split; congruence|]. reflexivity.
Qed.

(** C32: the join is a semilattice operation. *)
Theorem C32_semilattice : forall a b c,
  join a b = join b a /\ join a (join b c) = join (join a b) c /\ join a a = a.
Proof. exact (fun a b c => conj (join_comm a b) (conj (join_assoc a b c) (join_idem a))). Qed.
Print Assumptions C32_semilattice.

(** C32: for each pointer width it is the ABI's join, and as wide as both sides. *)
Theorem C32_join_meaning : forall p a b, p = 4 \/ p = 8 ->
  lower p (join a b) = core_join (lower p a) (lower p b) /\
  core_bits (lower p a) <= core_bits (lower p (join a b)) /\
  core_bits (lower p b) <= core_bits (lower p (join a b)).
Proof. exact (fun p a b Hp => conj (lower_join p a b Hp) (join_wide p a b Hp)). Qed.
Print Assumptions C32_join_meaning.

(** C32: every case's core types fit, position by position, in those of the variant. *)
Theorem C32_cases_fit : forall p cs t i a, In (Some t) cs -> nth_error (flatten p t) i = Some a ->
  exists b, nth_error (tl (flatten p (VVariant cs))) i = Some b /\ core_bits a <= core_bits b.
Proof. exact (fun p cs t i a H => variant_covers p cs t H i a). Qed.
Print Assumptions C32_cases_fit.
Example C32_fit_case : nth_error (flatten 4 (VPrim PF32)) 0 = Some F32 /\
  tl (flatten 4 (VVariant [Some (VPrim PF32); Some (VPrim PU64); Some VList])) = [I64; I32].
Proof. split; vm_compute; reflexivity. Qed.

(** C32: the order of the cases does not matter to the types pushed. *)
Theorem C32_case_order : forall defs n i i' cases cases' cs cs' k,
  nth_error defs i = Some (KVariant cases) -> nth_error defs i' = Some (KVariant cases') ->
  expand n defs (TId i) = Some (VVariant cs) -> expand n defs (TId i') = Some (VVariant cs') ->
  Permutation cs cs' -> allowed (VVariant cs) -> allowed (VVariant cs') ->
  exists ok r r', push_flat n defs (TId i) (flat_new (repeat WI32 k)) = Some (ok, r) /\
    push_flat n defs (TId i') (flat_new (repeat WI32 k)) = Some (ok, r') /\ (ok = true -> to_vec r = to_vec r').
Proof. exact case_order. Qed.
Print Assumptions C32_case_order.
Example C32_order_case :
  let defs := [KVariant [Some (TPrim PF32); Some (TPrim PString); Some (TPrim PU64)]; KVariant [Some (TPrim PU64); Some (TPrim PF32); Some (TPrim PString)]] in
  exists cs cs', expand 2 defs (TId 0) = Some (VVariant cs) /\ expand 2 defs (TId 1) = Some (VVariant cs') /\
  Permutation cs cs' /\ allowed (VVariant cs) /\ allowed (VVariant cs').
Proof.
  cbv zeta. do 2 eexists. split; [vm_compute; reflexivity|]. split; [vm_compute; reflexivity|].
  split; [apply Permutation_sym; eapply perm_trans; [apply perm_swap|]; apply perm_skip, perm_swap|]. split; vm_compute; repeat split; congruence.
Qed.
