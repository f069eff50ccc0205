(** C53: the validator accepts a module when, and only when, it is valid. *)
From Verif.Base Require Import Prelude.
From Verif.Reader Require Import Model.
From Verif.Types Require Import RefModel CodecModel EntityModel CanonModel CanonSpec CanonTop.
From Verif.Instr Require Import ImmModel Ops BodyModel.
From Verif.Sections Require Import SegModel.
From Verif.Validator Require Import State Checks Visit Api Body TypeSpec Module ModuleRes.
From Verif.Modval Require Import Model Spec Mono Top.

(** Sections [secs] with contents [c], as the parser gives them to the validator: they are in the order of modules, with as many bodies as functions
    (both are errors of the parser, C02), made of bytes and readable, with operators of those that have a rule in TypeSpec.v.  The types go under a number [k]
    not used before by the validator, whose history is [h] and whose state is [w]. *)
Record given (ft : features) (pos : Z) (h : list event) (k : Z) (w : world) (secs : list sec) (c : contents) : Prop := mkGiven
  { gv_history : reached h w;
    gv_new : w_scope w k = [];
    gv_params : few_params (h ++ map (AddGroup k) (ct_types c));
    gv_order : in_order 0 secs;
    gv_contents : contents_of ft pos secs = Some c;
    gv_bytes : Forall bytes_ok (flat_map (bytes_in ft pos) secs);
    gv_rules : Forall (fun e => forallb has_rule e = true) (exprs c);
    gv_bodies : zlen (ct_code c) = zlen (ct_functions c) }.

(** Missing: operators without a rule (legacy exceptions, stack switching, descriptors, atomics on other than memories). *)
Theorem C53_exact_partial F G ft pos h k w secs c : (forall f, f <> f_custom_descriptors -> F f = true) -> (forall g, G g = true) -> 0 < pos ->
  given ft pos h k w secs c -> (validate_module F G ft pos (w_store w) secs = Done tt <-> module_ok (F f_custom_descriptors) h k c).
Proof. intros HF HG Hp []. apply module_iff; assumption. Qed.
Print Assumptions C53_exact_partial.

(** With any features. *)
Theorem C53_sound_partial F G ft pos h k w secs c : 0 < pos -> given ft pos h k w secs c ->
  validate_module F G ft pos (w_store w) secs = Done tt -> module_ok (F f_custom_descriptors) h k c.
Proof.
  intros Hp Gv H. set (F' := fun f => if F f then true else match f with f_custom_descriptors => false | _ => true end).
  assert (E : F f_custom_descriptors = F' f_custom_descriptors) by (unfold F'; destruct (F f_custom_descriptors); reflexivity).
  rewrite E. apply (C53_exact_partial F' (fun _ => true) ft pos h k w secs c); [|intros; reflexivity|exact Hp|exact Gv|].
  - intros f N. unfold F'. destruct (F f); [reflexivity|]. destruct f; congruence.
  - refine (validate_module_more F F' G (fun _ => true) ft pos _ E _ _ _ _ H); [|intros; reflexivity]. intros f Hf. unfold F'. rewrite Hf. reflexivity.
Qed.
Print Assumptions C53_sound_partial.

(** A module with a function and a global imported, a table, a memory, two globals, two functions of its own, exports, a start function, an element
    segment and a data segment is accepted; with the same name exported twice it is not, and is not valid. *)
Definition rd {A} (item : R A) (b : list Z) : list A := match section_items item all_features 1 b with Ok l => l | Err _ => [] end.
Definition sample (exports : list Z) : list sec :=
  [STypes (rd read_rec [2; 0x60;0;0; 0x60;1;0x7f;1;0x7f]); SImports (rd read_imports [2; 1;101;1;102;0;1; 1;101;1;103;3;0x7f;0]); SFunctions [0; 1];
   STables (rd read_table_def [1; 0x70;0;2]); SMemories (rd read_memory [1; 0;1]); SGlobals (rd read_global_def [2; 0x70;0;0xd2;0;0x0b; 0x7f;1;0x23;0;0x0b]);
   SExports (rd read_export exports); SStart 1; SElements (rd read_elem [1; 0;0x23;0;0x0b;2;0;2]); SDataCount 1;
   SCode [[0; 0x41;5; 0x10;2; 0x1a; 0x0b]; [0; 0x20;0; 0x0b]]; SData (rd SegModel.read_data [1; 0;0x41;0;0x0b;1;120])].
Definition good := sample [2; 1;97;0;2; 1;109;2;0].
Definition bad := sample [2; 1;97;0;2; 1;97;2;0].
Definition with_contents (l : list sec) (P : contents -> Prop) : Prop := match contents_of all_features 1 l with Some c => P c | None => False end.
Example C53_case :
  with_contents good (fun c => given all_features 1 [] 0 start_world good c /\ validate_module (fun _ => true) (fun _ => true) all_features 1 (w_store start_world) good = Done tt /\ module_ok true [] 0 c) /\
  with_contents bad (fun c => given all_features 1 [] 0 start_world bad c /\ ~ module_ok true [] 0 c).
Proof.
  assert (Gi : forall l c, contents_of all_features 1 l = Some c -> (l = good \/ l = bad) -> given all_features 1 [] 0 start_world l c).
  { intros l c Hc Hl. constructor; [reflexivity|reflexivity| | |exact Hc| | |]; destruct Hl as [-> | ->]; vm_compute in Hc; injection Hc as <-; unfold few_params; cbn [app map ct_types ct_code ct_functions exprs ct_tables ct_globals ct_elements ct_data flat_map td_init gd_init ed_kind ed_items bd_ops in_order rank good bad sample flat_map bytes_in]; 
    try reflexivity; try (repeat constructor; fail); try (repeat split; lia); repeat constructor; vm_compute; intuition discriminate. }
  split.
  - unfold with_contents. destruct (contents_of all_features 1 good) as [c|] eqn:E; [|vm_compute in E; discriminate]. assert (Gv : given all_features 1 [] 0 start_world good c) by (apply Gi; auto).
    assert (V : validate_module (fun _ => true) (fun _ => true) all_features 1 (w_store start_world) good = Done tt) by (vm_compute; reflexivity).
    split; [exact Gv|]. split; [exact V|]. exact (C53_sound_partial _ _ all_features 1 _ _ _ _ _ ltac:(lia) Gv V).
  - unfold with_contents. destruct (contents_of all_features 1 bad) as [c|] eqn:E; [|vm_compute in E; discriminate]. assert (Gv : given all_features 1 [] 0 start_world bad c) by (apply Gi; auto).
    split; [exact Gv|]. intros M. apply (C53_exact_partial (fun _ => true) (fun _ => true) all_features 1 _ _ _ _ _ ltac:(auto) ltac:(auto) ltac:(lia) Gv) in M. vm_compute in M. discriminate.
Qed.
