(** C60: index spaces and module-level names of the text format. *)
From Coq Require Import List Arith Bool Lia.
Import ListNotations.
From Verif.Space Require Import Model Spec Proofs Accept.

(** Every export, start function and segment of the text, in its order, ends up with the number of the item that is meant: an inline one is of the
    item it is written at, a name is of the only item of that kind called so, and a number stays. *)
Theorem C60_references : forall fs out, source fs -> resolve fs = Ok out -> Forall2 (met fs) (requests (fun _ => 0) fs) (requests (fun _ => 0) out).
Proof. intros fs out S R. apply (resolve_all fs out S R). Qed.
Print Assumptions C60_references.

(** The numbers count the items of the text, and these are in the same order in the binary, where all the imports come first.
    Full statement: for every kind.  It is refuted for tags below; they need the imports to be first in the text. *)
Theorem C60_spaces_partial : forall fs out k, source fs -> resolve fs = Ok out -> (k = Tag -> imports_first (items Tag fs)) -> encoded k out = map snd (items k fs).
Proof.
  intros fs out k S R T. destruct (resolve_all fs out S R) as (_ & _ & F & E). apply E. destruct k; try (apply F; discriminate). apply T. reflexivity.
Qed.
Print Assumptions C60_spaces_partial.

(** Functions, tables, memories and globals: no import after a definition of the same kind is accepted. *)
Theorem C60_order : forall fs out k, source fs -> resolve fs = Ok out -> k <> Tag -> imports_first (items k fs).
Proof. intros fs out k S R K. destruct (resolve_all fs out S R) as (_ & _ & F & _). exact (F k K). Qed.
Print Assumptions C60_order.

(** A text is accepted exactly when no import comes after a definition of a function, table, memory or global, the names of each kind are
    distinct, and every name in use is that of an item of its kind, before or after. *)
Theorem C60_accepts : forall fs, source fs -> plain_ids fs -> ((exists out, resolve fs = Ok out) <-> acceptable fs).
Proof. exact accepts. Qed.
Print Assumptions C60_accepts.

(** [(module (tag $a (param i32)) (import "m" "n" (tag $b)) (export "e" (tag $a)))] is accepted, and the tag it exports is the imported one. *)
Definition tags : list field := [FItem Tag (Some (Src 1)) [] Defined 10; FImport [(Tag, Some (Src 2), 20)]; FExport 5 Tag (Sym (Src 1))].
Theorem C60_tags_refuted : exists out, source tags /\ resolve tags = Ok out /\
  nth_error (items Tag tags) 0 = Some (Some (Src 1), (false, 10)) /\ In (FExport 5 Tag (Num 0)) out /\ nth_error (encoded Tag out) 0 = Some (true, 20).
Proof.
  exists [FItem Tag (Some (Src 1)) [] Defined 10; FImport [(Tag, Some (Src 2), 20)]; FExport 5 Tag (Num 0)].
  split; [repeat constructor |]. split; [reflexivity |]. split; [reflexivity |]. split; [right; right; left; reflexivity | reflexivity].
Qed.
Print Assumptions C60_tags_refuted.

(** Inline imports and exports, a memory with inline data, and references by name before the definition. *)
Definition case60 : list field :=
  [FStart (Sym (Src 2)); FImport [(Func, None, 100); (Memory, Some (Src 1), 101)]; FItem Func None [50; 51] Imported 102; FExport 52 Memory (Sym (Src 1));
   FItem Func (Some (Src 2)) [53] Defined 103; FItem Memory None [54] (Inlined 200) 104; FSegment Memory (Some (Num 0)) 201; FSegment Table None 202; FItem Tag None [] Imported 105].
Example C60_case : source case60 /\ plain_ids case60 /\ acceptable (removelast case60) /\
  resolve (removelast case60) = Ok [FStart (Num 2); FImport [(Func, None, 100); (Memory, Some (Src 1), 101)]; FExport 50 Func (Num 1); FExport 51 Func (Num 1); FImport [(Func, Some (Gen 0), 102)];
    FExport 52 Memory (Num 0); FExport 53 Func (Num 2); FItem Func (Some (Src 2)) [] Defined 103; FExport 54 Memory (Num 1); FSegment Memory (Some (Num 1)) 200; FItem Memory (Some (Gen 1)) [] Defined 104;
    FSegment Memory (Some (Num 0)) 201; FSegment Table None 202] /\
  resolve case60 = Err ImportAfter /\ resolve [FItem Func (Some (Src 1)) [] Defined 1; FItem Func (Some (Src 1)) [] Defined 2] = Err (Duplicate Func (Src 1)) /\ resolve [FStart (Sym (Src 1))] = Err (Unknown Func (Src 1)).
Proof.
  assert (P : forall fs, (forall k, In k [Func; Table; Memory; Global; Tag] -> Forall (fun x => exists n, x = Src n) (ids k fs)) -> plain_ids fs).
  { intros fs H k n C. assert (K : In k [Func; Table; Memory; Global; Tag]) by (destruct k; simpl; tauto). pose proof (proj1 (Forall_forall _ _) (H k K) _ C) as (m & E). discriminate. }
  split; [repeat constructor |]. split; [apply P; intros k [<- | [<- | [<- | [<- | [<- | []]]]]]; vm_compute; repeat constructor; eauto |]. split.
  - apply accepts; [repeat constructor | apply P; intros k [<- | [<- | [<- | [<- | [<- | []]]]]]; vm_compute; repeat constructor; eauto | eexists; vm_compute; reflexivity].
  - repeat split.
Qed.
