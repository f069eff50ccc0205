(** C58: inline function types of the text format. *)
From Coq Require Import List Arith Bool Lia.
Import ListNotations.
From Verif.Inline Require Import Model Spec Proofs.

(** A use with an index is left as it is, a block without parameters and with at most one result stays without a type,
    and every other use gets the first type defined on its own with exactly that signature. *)
Theorem C58_uses : forall c fs, source fs -> Forall2 (expanded (expand c fs)) (uses fs) (uses (expand c fs)).
Proof. intros c fs S. apply expand_all. exact S. Qed.
Print Assumptions C58_uses.

(** Nothing else changes: the fields are those of the source in their order, followed by one plain type for each signature
    that is needed and that no type defined on its own has. *)
Theorem C58_rest : forall c fs, source fs ->
  exists ks, map bare (expand c fs) = map bare fs ++ map (fun k => FType None (mkDef (KFunc k) false None None None None)) ks /\
    map snd (single_types (expand c fs)) = map snd (single_types fs) ++ map (fun k => mkDef (KFunc k) false None None None None) ks /\
    NoDup ks /\ forall k, In k ks ->
      (forall e, In e (single_types fs) -> d_kind (snd e) <> KFunc k) /\ exists a, In a (uses fs) /\ needs a /\ signature (snd a) = k.
Proof.
  intros c fs S. destruct (expand_all c fs S) as (_ & _ & _ & ks & A & B & N & D & W). exists ks. split; [exact A | split; [exact B | split; [exact N |]]]. intros k Hk. split; [intro e; exact (D k e Hk) | exact (W k Hk)].
Qed.
Print Assumptions C58_rest.

(** The identifiers in use are those of one type each, and every type defined on its own has one. *)
Theorem C58_names : forall c fs, source fs -> NoDup (type_ids (expand c fs)) /\ forall e, In e (single_types (expand c fs)) -> fst e <> None.
Proof. intros c fs S. destruct (expand_all c fs S) as (_ & N & F & _). auto. Qed.
Print Assumptions C58_names.

(** An inline signature should stand for a plain function type: it does if all those defined on their own are. *)
Theorem C58_plain_partial : forall c fs k x d, source fs -> (forall e f, In e (single_types fs) -> d_kind (snd e) = KFunc f -> plain (snd e)) ->
  first_with (expand c fs) k x d -> plain d.
Proof.
  intros c fs k x d S P (a & b & E & K & _). destruct (expand_all c fs S) as (_ & _ & _ & ks & _ & B & _).
  assert (H : In d (map snd (single_types fs) ++ map to_def ks)) by (rewrite <- B, E, map_app; apply in_or_app; right; left; reflexivity).
  apply in_app_or in H. destruct H as [H | H]; apply in_map_iff in H.
  - destruct H as (e & <- & He). exact (P e k He K).
  - destruct H as (k' & <- & _). repeat split; discriminate.
Qed.
Print Assumptions C58_plain_partial.

(** In general it does not: [(module (type (sub (func))) (type (func)) (func))] and [(module (type (shared (func))) (func))]. *)
Definition open_type : tdef := mkDef (KFunc (mkF [] [])) false None None None (Some false).
Definition shared_type : tdef := mkDef (KFunc (mkF [] [])) true None None None None.
Definition with_open : list field := [FType None open_type; FType None (to_def (mkF [] [])); FFunc no_use (Some [])].
Definition with_shared : list field := [FType None shared_type; FFunc no_use (Some [])].
Theorem C58_plain_refuted :
  source with_open /\ uses with_open = [(false, no_use)] /\
  (exists x, uses (expand 0 with_open) = [(false, mkUse (Some (Sym x)) None)] /\ first_with (expand 0 with_open) (mkF [] []) x open_type) /\ ~ plain open_type /\
  source with_shared /\ uses with_shared = [(false, no_use)] /\
  (exists x, uses (expand 0 with_shared) = [(false, mkUse (Some (Sym x)) None)] /\ first_with (expand 0 with_shared) (mkF [] []) x shared_type) /\ ~ plain shared_type.
Proof.
  split; [split; [constructor | intros n []] |]. split; [reflexivity |]. split.
  { exists (Gen 0). split; [reflexivity |]. exists [], [(Some (Gen 1), to_def (mkF [] []))]. split; [reflexivity |]. split; [reflexivity | intros e []]. }
  split; [intros (_ & _ & _ & _ & C); apply C; reflexivity |].
  split; [split; [constructor | intros n []] |]. split; [reflexivity |]. split.
  { exists (Gen 0). split; [reflexivity |]. exists [], []. split; [reflexivity |]. split; [reflexivity | intros e []]. }
  intros (C & _). discriminate.
Qed.
Print Assumptions C58_plain_refuted.

(** A module with a type in a group, a named one, two uses of one new signature, one of the named type and blocks of both kinds. *)
Definition i32 := Plain 127.
Definition case58 : list field :=
  [FRec [(Some (Src 1), to_def (mkF [i32] []))]; FType (Some (Src 2)) (to_def (mkF [i32] [i32])); FImport [SUse 0 (mkUse None (Some (mkF [i32] [])))];
   FFunc (mkUse None (Some (mkF [i32] [i32]))) (Some [Block 0 (mkUse None (Some (mkF [] [i32]))); Block 1 (mkUse None (Some (mkF [i32] []))); CallIndirect 0 (mkUse (Some (Num 0)) None); Block 2 no_use])].
Example C58_case : source case58 /\
  uses (expand 0 case58) =
    [(false, mkUse (Some (Sym (Gen 0))) (Some (mkF [i32] []))); (false, mkUse (Some (Sym (Src 2))) (Some (mkF [i32] [i32]))); (true, mkUse None (Some (mkF [] [i32])));
     (true, mkUse (Some (Sym (Gen 0))) (Some (mkF [i32] []))); (false, mkUse (Some (Num 0)) None); (true, mkUse None (Some (mkF [] [])))] /\
  single_types (expand 0 case58) = [(Some (Src 2), to_def (mkF [i32] [i32])); (Some (Gen 0), to_def (mkF [i32] []))].
Proof.
  split; [| split; reflexivity]. split.
  - unfold type_ids. simpl. repeat constructor; simpl; intuition discriminate.
  - intros n. unfold type_ids. simpl. intuition discriminate.
Qed.
