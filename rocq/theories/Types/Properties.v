(** Properties C13, C14 and part of C05: binary form of types. *)
From Verif.Base Require Import Prelude Utf8.
From Verif.Reader Require Import Model Spec Mono.
From Verif.Leb Require Import Model.
From Verif.Codec Require Import Kit.
From Verif.Types Require Import RefModel RefSpec RefProofs CodecModel CodecSpec CodecTop EntityModel EntitySpec EntityProofs Strict.

(** C14: a reference type is built exactly when its index fits; what is built gives back
    the nullability and the heap type; two are equal only if built from the same parts. *)
Theorem C14_total : forall n h, u32_heap h -> (exists r, ref_new n h = Some r) <-> fits h.
Proof. exact ref_new_total. Qed.
Print Assumptions C14_total.
Theorem C14_faithful : forall n h r, u32_heap h -> ref_new n h = Some r ->
  is_nullable r = n /\ heap_type_of r = Some h /\ from_u32_ok r = true /\ in_u 32 r.
Proof. exact ref_new_faithful. Qed.
Print Assumptions C14_faithful.
Theorem C14_injective : forall n n' h h' r, u32_heap h -> u32_heap h' ->
  ref_new n h = Some r -> ref_new n' h' = Some r -> n = n' /\ h = h'.
Proof. exact ref_new_inj. Qed.
Print Assumptions C14_injective.
(** The queries and the changes of nullability and sharing agree with the parts. *)
Theorem C14_queries : forall n h r, u32_heap h -> ref_new n h = Some r ->
  ref_new false h = Some (as_non_null r) /\ ref_new true h = Some (to_nullable r) /\
  to_shared r = match h with HAbstract _ t => ref_new n (HAbstract true t) | _ => None end /\
  type_index r = match h with HAbstract _ _ => None | HConcrete u | HExact u => pack u end /\
  is_concrete r = match h with HAbstract _ _ => false | _ => true end /\
  is_exact r = match h with HExact _ => true | _ => false end /\
  forall t, is_abs_ref t r = match h with HAbstract _ t' => if aht_eq_dec t t' then true else false | _ => false end.
Proof. exact ref_ops. Qed.
Print Assumptions C14_queries.
Theorem C14_difference : forall n h a b, u32_heap h -> ref_new n h = Some a ->
  exists d, difference a b = Some d /\ heap_type_of d = Some h /\ is_nullable d = n && negb (is_nullable b).
Proof. exact difference_ok. Qed.
Print Assumptions C14_difference.
Example C14_case :
  let h := HExact (URecGroup 1048575) in
  u32_heap h /\ fits h /\ ref_new true h = Some 0x1dfffff /\ heap_type_of 0x1dfffff = Some h /\ ref_new true (HExact (URecGroup 1048576)) = None.
Proof. vm_compute. repeat split; congruence. Qed.

(** C13: reading what was written, whatever follows it, returns a type that converts to the one
    written and stops where it ends. *)
Theorem C13_types :
  (forall h, heap_ok h -> reads_as any_ft enc_heap read_heap c_heap h) /\
  (forall r, ref_ok r -> reads_as any_ft enc_ref read_ref c_ref r) /\
  (forall v, val_ok v -> reads_as any_ft enc_val read_val c_val v) /\
  (forall s, storage_ok s -> reads_as any_ft enc_storage read_storage c_storage s) /\
  (forall f, field_ok f -> reads_as any_ft enc_field read_field c_field f) /\
  (forall s, sub_ok s -> reads_as any_ft enc_sub read_sub c_sub s) /\
  (forall g, rec_ok g -> reads_as any_ft enc_rec read_rec c_rec g).
Proof. exact types_roundtrip. Qed.
Print Assumptions C13_types.
Theorem C13_entities : forall m64,
  (forall t, table_ok m64 t -> reads_as (with_m64 m64) enc_table read_table c_table t) /\
  (forall m, memory_ok m64 m -> reads_as (with_m64 m64) enc_memory read_memory Some m) /\
  (forall g, global_ok g -> reads_as (with_m64 m64) enc_global read_global c_global g) /\
  (forall i, in_u 32 i -> reads_as (with_m64 m64) enc_tag read_tag Some i) /\
  (forall n, entity_ok m64 n -> reads_as (with_m64 m64) enc_entity read_entity c_entity n) /\
  (forall x, export_ok x -> reads_as (with_m64 m64) enc_export read_export c_export x).
Proof. exact entities_roundtrip. Qed.
Print Assumptions C13_entities.
Theorem C13_imports : forall m64 i, imports_ok m64 i ->
  exists bs p, enc_imports i = Some bs /\
  (forall rest pos off ft, f_memory64 ft = m64 -> bytes_ok rest ->
     read_imports (mkReader (bs ++ rest) pos off ft) = Ok (p, mkReader rest (pos + zlen bs) off ft)) /\
  forall off ft, f_memory64 ft = m64 ->
    c_imports ft off p = Some i /\
    exists l, flatten_imports ft off p = Ok l /\
      map (fun x => (fst x, c_entity (snd x))) l = map (fun x => (fst x, Some (snd x))) (members i).
Proof. exact imports_roundtrip. Qed.
Print Assumptions C13_imports.
(** Whole sections of such items. *)
Theorem C13_sections : forall m64,
  (forall l, Forall rec_ok l -> zlen l < 2 ^ 32 -> section_reads m64 enc_rec read_rec c_rec l) /\
  (forall l, Forall (in_u 32) l -> zlen l < 2 ^ 32 -> section_reads m64 encode_u32 read_var_u32 Some l) /\
  (forall l, Forall (table_ok m64) l -> zlen l < 2 ^ 32 -> section_reads m64 enc_table read_table c_table l) /\
  (forall l, Forall (memory_ok m64) l -> zlen l < 2 ^ 32 -> section_reads m64 enc_memory read_memory Some l) /\
  (forall l, Forall (in_u 32) l -> zlen l < 2 ^ 32 -> section_reads m64 enc_tag read_tag Some l) /\
  (forall l, Forall export_ok l -> zlen l < 2 ^ 32 -> section_reads m64 enc_export read_export c_export l).
Proof. exact sections_roundtrip. Qed.
Print Assumptions C13_sections.
Example C13_case :
  let g := ERec [mkESub false (Some 1048575) (mkEComp (EStruct [mkEField (EVal (ERef (mkERef true (EExact 77)))) true; mkEField EI8 false]) true (Some 3) (Some 200));
                 mkESub true None (mkEComp (EFunc [EV128; ERef (mkERef false (EAbs true I31))] [EF32]) false None None)] in
  rec_ok g /\
  match enc_rec g with
  | Some bs => match read_rec (new_reader all_features (bs ++ [7]) 5) with
               | Ok (p, r) => c_rec p = Some g /\ r_rem r = [7] /\ r_pos r = zlen bs
               | Err _ => False
               end
  | None => False
  end.
Proof. split; [|vm_compute; repeat split; reflexivity]. repeat first [exact I | split | apply Forall_cons | apply Forall_nil | reflexivity | (cbn; lia) | (vm_compute; congruence)]. Qed.
Example C13_entity_case :
  let i := ICompact1 [97] [mkItem [98] (NTable (mkTable (mkERef false (EConcrete 9)) true (2 ^ 40) (Some (2 ^ 63)) true));
                           mkItem [] (NMemory (mkMemory false true 1 None (Some 0)))] in
  imports_ok true i /\
  match enc_imports i with
  | Some bs => match read_imports (new_reader all_features (bs ++ [7]) 5) with
               | Ok (p, r) => c_imports all_features 0 p = Some i /\ r_rem r = [7]
               | Err _ => False
               end
  | None => False
  end.
Proof. split; [|vm_compute; repeat split; reflexivity]. repeat first [exact I | split | apply Forall_cons | apply Forall_nil | reflexivity | (cbn; lia) | (vm_compute; congruence)]. Qed.

(** And back: whatever the readers accept can be converted and written, and what is
    written then reads as the very same value. *)
Theorem C13_types_rewrite :
  rewrites any_ft enc_heap read_heap c_heap /\ rewrites any_ft enc_ref read_ref c_ref /\ rewrites any_ft enc_val read_val c_val /\
  rewrites any_ft enc_storage read_storage c_storage /\ rewrites any_ft enc_field read_field c_field /\
  rewrites any_ft enc_sub read_sub c_sub /\ rewrites any_ft enc_rec read_rec c_rec.
Proof. exact types_rewrite. Qed.
Print Assumptions C13_types_rewrite.
Theorem C13_entities_rewrite : forall m64,
  rewrites (with_m64 m64) enc_table read_table c_table /\ rewrites (with_m64 m64) enc_memory read_memory Some /\
  rewrites (with_m64 m64) enc_global read_global c_global /\ rewrites (with_m64 m64) enc_tag read_tag Some /\
  rewrites (with_m64 m64) enc_entity read_entity c_entity /\ rewrites (with_m64 m64) enc_export read_export c_export.
Proof. exact entities_rewrite. Qed.
Print Assumptions C13_entities_rewrite.
Example C13_rewrite_case :
  match read_val (new_reader all_features [0x63; 0x85; 0x80; 0x00; 9] 0) with
  | Ok (p, _) => c_val p = Some (ERef (mkERef true (EConcrete 5))) /\ enc_val (ERef (mkERef true (EConcrete 5))) = Some [0x63; 5]
  | Err _ => False
  end.
Proof. vm_compute. auto. Qed.

(** C05 for these readers: more input never changes a result that is not an end-of-file
    error, and an end-of-file error asks for bytes that are really needed. *)
Theorem C05_type_readers :
  honest read_heap /\ honest read_ref /\ honest read_val /\ honest read_storage /\ honest read_field /\ honest read_sub /\ honest read_rec.
Proof. exact types_honest. Qed.
Print Assumptions C05_type_readers.
Theorem C05_entity_readers :
  honest read_table /\ honest read_memory /\ honest read_global /\ honest read_tag /\ honest read_entity /\ honest read_export /\ honest read_imports.
Proof. exact entities_honest. Qed.
Print Assumptions C05_entity_readers.
Example C05_types_case :
  match read_rec (new_reader all_features [0x60; 2; 0x7f] 0) with Err e => e_hint e = Some 1 | Ok _ => False end.
Proof. vm_compute. reflexivity. Qed.

(** Malformed flags are rejected: the mutability of a field is a byte that is 0 or 1, and the form of an
    import is told by its own name or, after an empty one, by the byte that follows. *)
Theorem C13_field_strict : forall r f r', read_field r = Ok (f, r') ->
  exists bs m r1, read_storage r = Ok (pf_elem f, r1) /\ consumes r bs r1 /\ consumes r (bs ++ [m]) r' /\ (m = 0 /\ pf_mut f = false \/ m = 1 /\ pf_mut f = true).
Proof. exact field_strict. Qed.
Print Assumptions C13_field_strict.
Theorem C13_imports_strict : forall r q r', read_imports r = Ok (q, r') ->
  exists m n r1 r2 d t, read_string r = Ok (m, r1) /\ read_string r1 = Ok (n, r2) /\ r_rem r2 = d :: t /\
  match q with
  | QSingle m' n' _ => m' = m /\ n' = n /\ (n = [] -> d <> 0x7F /\ d <> 0x7E)
  | QCompact1 m' _ => m' = m /\ n = [] /\ d = 0x7F
  | QCompact2 m' _ _ => m' = m /\ n = [] /\ d = 0x7E
  end.
Proof. exact imports_strict. Qed.
Print Assumptions C13_imports_strict.
Example C13_strict_case :
  match read_field (new_reader all_features [0x78; 1; 5] 0) with Ok (f, _) => pf_mut f = true | Err _ => False end /\
  match read_field (new_reader all_features [0x78; 2; 5] 0) with Ok _ => False | Err _ => True end /\
  match read_imports (new_reader all_features [1; 97; 0; 0x7f; 0] 0) with Ok (QCompact1 _ _, _) => True | _ => False end.
Proof. vm_compute. auto. Qed.
