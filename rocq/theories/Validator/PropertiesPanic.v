(** Property C54: validating a function body gives a result or an error, and does not panic, whatever its bytes are. *)
From Verif.Base Require Import Prelude.
From Verif.Reader Require Import Model.
From Verif.Types Require Import RefModel CodecModel CanonModel CanonSpec CanonPanic.
From Verif.Instr Require Import ImmModel Ops BodyModel.
From Verif.Validator Require Import State Checks Api Body Module Calm CalmBody CalmModule CalmLimit.

(** The English claim has no condition on the number of types.  It is proved while the validator holds at most 2^20 of them: the types of all the modules it
    has seen so far, each counted once.  The body is any list of bytes, the features of the reader and those of the validator are any, and so are the
    index of the function's type and the contents of the module but for its types, which are those of some scope of the history.
    Missing: what debug builds check; the panics of the store on an unknown type in the questions of
    [module_resources] about subtypes, shared types and tops, which are answered instead; and operators given to the validator by a client and not read from bytes. *)
Theorem C54_body_partial : forall h w k m F ft start ty off bytes,
  reached h w -> md_types m = w_scope w k -> zlen (st_types (w_store w)) <= 2 ^ 20 -> 0 <= off -> bytes_ok bytes ->
  validate (module_resources (w_store w) m) F ft start ty off bytes <> Body.Panicked.
Proof. intros h w k m F ft start ty off bytes H E L Ho Hb. apply validate_calm; [exact (reached_sane h w k m H E L)| |]; assumption. Qed.
Print Assumptions C54_body_partial.

(** The same for every implementation of the resources, of which a module is one: those whose types refer to types they know, whose
    continuation types are of functions, and whose resolved references can be represented.  [sane] is in Calm.v. *)
Theorem C54_resources_partial : forall R F ft start ty off bytes, sane R -> 0 <= off -> bytes_ok bytes ->
  validate R F ft start ty off bytes <> Body.Panicked.
Proof. intros R F ft start ty off bytes H. apply validate_calm. exact H. Qed.
Print Assumptions C54_resources_partial.

(** A body that uses blocks, a loop, a table of labels, unreachable code and locals, and one that is cut short; both meet the
    hypotheses, and the first is accepted. *)
Definition calm_body : list Z :=
  [1; 2; 0x7f;                                                   (* two i32 locals *)
   0x02; 0x40; 0x03; 0x40; 0x20; 0; 0x0e; 1; 0; 1; 0x0b; 0x0b;    (* block; loop; local.get 0; br_table [0] 1; end; end *)
   0x41; 7; 0x22; 1; 0x04; 0x40; 0x00; 0x05; 0x0f; 0x0b;           (* i32.const 7; local.tee 1; if; unreachable; else; return; end *)
   0xd0; 0x00; 0x1a; 0x0b].                                      (* ref.null 0; drop; end *)
Example C54_case : exists w, reached [AddGroup 0 [FT]] w /\ md_types (one_type 0) = w_scope w 0 /\ zlen (st_types (w_store w)) <= 2 ^ 20 /\ bytes_ok calm_body /\
  validate (module_resources (w_store w) (one_type 0)) (fun _ => true) all_features 90 0 100 calm_body = Body.Done tt /\
  (exists e, validate (module_resources (w_store w) (one_type 0)) (fun _ => true) all_features 90 0 100 (firstn 15 calm_body) = Body.Rejected e).
Proof.
  eexists. split; [vm_compute; reflexivity|]. split; [reflexivity|]. split; [vm_compute; discriminate|]. split; [repeat constructor; lia|].
  split; [vm_compute; reflexivity|]. eexists. vm_compute. reflexivity.
Qed.

(** C54 does not hold without the bound.  A validator keeps the types of the modules it has seen ([Validator::reset]), and a reference holds
    20 bits of the number of its type.  After modules with 1048576 different types, the module with the one type [func], and the one function
    [ref.null 0; drop], makes it panic, while a fresh validator accepts it. *)
Theorem C54_refuted : exists h w k,
  reached h w /\ zlen (w_scope w k) = 1 /\
  (exists m, md_types m = w_scope w k /\ validate (module_resources (w_store w) m) (fun _ => true) all_features 90 0 100 null_body = Body.Panicked) /\
  (forall i, nthz (w_scope w k) 0 = Some i -> nthz (st_types (w_store w)) i = Some FT) /\
  (forall k' g, In (AddGroup k' g) h -> zlen g <= 1000000) /\
  (exists w0, reached [AddGroup 0 [FT]] w0 /\ exists m, md_types m = w_scope w0 0 /\
     validate (module_resources (w_store w0) m) (fun _ => true) all_features 90 0 100 null_body = Body.Done tt).
Proof.
  destruct crowded as (w & H & Es & Et). exists [AddGroup 0 fillA; AddGroup 1 fillB; AddGroup 2 [FT]], w, 2. split; [exact H|]. rewrite Es. split; [reflexivity|]. split; [|split; [|split]].
  - exists (one_type (2 ^ 20)). split; [reflexivity|]. apply null_panics.
    + cbn [module_resources r_sub_type_at]. unfold opt_nthz. change (nthz (md_types (one_type (2 ^ 20))) 0) with (Some (2 ^ 20)). unfold stored. rewrite Et. reflexivity.
    + intros a. reflexivity.
  - intros i Hi. change (nthz [2 ^ 20] 0) with (Some (2 ^ 20)) in Hi. injection Hi as <-. exact Et.
  - intros k' g [X|[X|[X|[]]]]; injection X as <- <-; [unfold fillA|unfold fillB|]; rewrite ?zlen_repeat by lia; try lia. change (zlen [FT]) with 1. lia.
  - eexists. split; [vm_compute; reflexivity|]. exists (one_type 0). split; [reflexivity|]. vm_compute. reflexivity.
Qed.
Print Assumptions C54_refuted.
