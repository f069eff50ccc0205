(** Property C16: the function validator accepts the bodies that have a type.  The typing rules are in TypeSpec.v. *)
From Verif.Base Require Import Prelude.
From Verif.Reader Require Import Model.
From Verif.Types Require Import RefModel CodecModel CanonModel CanonSpec.
From Verif.Instr Require Import ImmModel Ops BodyModel.
From Verif.Validator Require Import State Checks Api Body TypeSpec TypeRun TypeFunc Module ModuleRes Mono Readable.

(** The features of [F] with all others but custom descriptors, which changes the types of operators instead of allowing more. *)
Definition widest (F : feature -> bool) (f : feature) : bool := match f with f_custom_descriptors => F f_custom_descriptors | _ => true end.

(** C16, for a module in any reachable state of the type store: a body the validator accepts, with whatever features, has a type,
    and one that has a type is accepted when the features are enabled.  [has_rule] excludes what TypeSpec.v has no rules for: legacy exceptions, stack
    switching, descriptors and the atomic accesses outside memories.  Functions have at most 1000 parameters when read from a module. *)
Theorem C16_sound_partial : forall h w m F ft start ty off bytes, reached h w -> zlen (md_types m) <= 1000000 ->
  let M := module_resources (w_store w) m in
  (forall t ps rs, r_sub_type_at M ty = Some t -> c_inner (s_comp t) = IFunc ps rs -> zlen ps <= 1000) ->
  bytes_ok bytes -> 0 <= off -> (forall ops, body_ops ft off bytes = Ok ops -> forallb has_rule ops = true) ->
  validate M F ft start ty off bytes = Body.Done tt ->
  exists groups ops, body_locals ft off bytes = Ok groups /\ body_ops ft off bytes = Ok ops /\ func_ok M (F f_custom_descriptors) ty groups ops.
Proof.
  intros h w m F ft start ty off bytes R L M Hp B O H V.
  apply (validate_more M F (widest F)) in V; [| intros [] X; try reflexivity; exact X | reflexivity].
  apply (validate_iff M (widest F) (module_res_ok h w m R L)) in V; auto.
  - intros [] X; try reflexivity. congruence.
  - intros t ps rs E1 E2. pose proof (Hp t ps rs E1 E2). lia.
Qed.
Print Assumptions C16_sound_partial.
Theorem C16_complete_partial : forall h w m F ft start ty off bytes, reached h w -> zlen (md_types m) <= 1000000 ->
  let M := module_resources (w_store w) m in
  (forall t ps rs, r_sub_type_at M ty = Some t -> c_inner (s_comp t) = IFunc ps rs -> zlen ps <= 1000) ->
  bytes_ok bytes -> 0 <= off -> (forall ops, body_ops ft off bytes = Ok ops -> forallb has_rule ops = true) ->
  (forall f, f <> f_custom_descriptors -> F f = true) ->
  (exists groups ops, body_locals ft off bytes = Ok groups /\ body_ops ft off bytes = Ok ops /\ func_ok M (F f_custom_descriptors) ty groups ops) ->
  validate M F ft start ty off bytes = Body.Done tt.
Proof.
  intros h w m F ft start ty off bytes R L M Hp B O H HF V.
  apply (validate_iff M F (module_res_ok h w m R L)); auto. intros t ps rs E1 E2. pose proof (Hp t ps rs E1 E2). lia.
Qed.
Print Assumptions C16_complete_partial.
(** The same for any implementation of the module's side that answers consistently ([res_ok], which C16_sound_partial shows of the
    one that comes with the validator). *)
Theorem C16_any_module_partial : forall M F ft start ty off bytes, res_ok M -> (forall f, f <> f_custom_descriptors -> F f = true) ->
  (forall t ps rs, r_sub_type_at M ty = Some t -> c_inner (s_comp t) = IFunc ps rs -> zlen ps <= 50000) ->
  bytes_ok bytes -> 0 <= off -> (forall ops, body_ops ft off bytes = Ok ops -> forallb has_rule ops = true) ->
  (validate M F ft start ty off bytes = Body.Done tt <->
   exists groups ops, body_locals ft off bytes = Ok groups /\ body_ops ft off bytes = Ok ops /\ func_ok M (F f_custom_descriptors) ty groups ops).
Proof. intros M F ft start ty off bytes R HF Hp B O H. exact (validate_iff M F R HF ft start ty off bytes Hp B O H). Qed.
Print Assumptions C16_any_module_partial.
(** The subtyping of the rules is that of the types of the module. *)
Theorem C16_subtyping : forall h w m a b, reached h w ->
  (r_is_subtype (module_resources (w_store w) m) (m_val UId a) (m_val UId b) = true <-> val_sub (st_types (w_store w)) a b).
Proof. intros h w m a b R. exact (module_subtype h w m a b R). Qed.
Print Assumptions C16_subtyping.
(** The type a cast starts from is the top of the hierarchy of the type it goes to. *)
Theorem C16_top_type : forall h w m x, reached h w -> let T := st_types (w_store w) in
  match x with HA _ _ => True | HC i | HX i => exists t, is_type T i t end ->
  exists sh t, r_top_type (module_resources (w_store w) m) (m_heap UId x) = HA sh t /\ heap_sub T x (HA sh t) /\
    forall y, heap_sub T (HA sh t) y -> y = HA sh t.
Proof. exact module_top. Qed.
Print Assumptions C16_top_type.

(** C47: features other than custom descriptors only allow: a body that is accepted is accepted with more of them. *)
Theorem C47_more_features : forall M F F' ft start ty off bytes, (forall f, F f = true -> F' f = true) ->
  F f_custom_descriptors = F' f_custom_descriptors ->
  validate M F ft start ty off bytes = Body.Done tt -> validate M F' ft start ty off bytes = Body.Done tt.
Proof. intros M F F' ft start ty off bytes H1 H2. exact (validate_more M F F' H1 H2 ft start ty off bytes). Qed.
Print Assumptions C47_more_features.

(** C48: a body that is accepted can be read, and what was validated one operator after the other is what is read, whatever the module answers. *)
Theorem C48_validated_is_read : forall M F ft start ty off bytes, bytes_ok bytes -> 0 <= off ->
  validate M F ft start ty off bytes = Body.Done tt ->
  exists l s0 s1, body_ops ft off bytes = Ok (map snd l) /\
    map fr_kind (vs_control s0) = [FBlock] /\ run M F l s0 = VOk tt s1 /\ vs_control s1 = [].
Proof. intros M F. exact (accepted_reads M F). Qed.
Print Assumptions C48_validated_is_read.

(** A case: the types of a module, and a function of type [(ref null $s) i32 -> i64] that reads a field, keeps it in a local, leaves a block early and
    has an addition in unreachable code. *)
Definition case_types : list event :=
  [AddGroup 0 [mkS true None (mkC (IFunc [VI32] [VI32]) false None None)];
   AddGroup 0 [mkS true None (mkC (IStruct [mkF (SVal VI64) true]) false None None)];
   AddGroup 0 [mkS true None (mkC (IFunc [VRef (mkR true (HC 1)); VI32] [VI64]) false None None)]].
Definition case_module : modul := mkModul [0; 1; 2] [2] [] [] [] [] [] None [] 0 [].
Definition case_body : list Z :=
  [1; 1; 0x7e;
   0x20; 0; 0xfb; 2; 1; 0; 0x21; 2;
   2; 0x7e; 0x20; 2; 0x20; 1; 0x0d; 0; 0x42; 1; 0x7c; 0x0b; 0x0f;
   0x7c; 0x0b].
(** The same without the field access: no type. *)
Definition wrong_body : list Z :=
  [1; 1; 0x7e;
   0x20; 0; 0x21; 2;
   2; 0x7e; 0x20; 2; 0x20; 1; 0x0d; 0; 0x42; 1; 0x7c; 0x0b; 0x0f;
   0x7c; 0x0b].
Definition case_features (f : feature) : bool := match f with f_custom_descriptors => false | _ => true end.
Definition world_of (h : list event) : world := match CanonModel.run start_world h with CanonModel.Done w => w | _ => start_world end.
Example C16_case :
  let w := world_of case_types in
  let M := module_resources (w_store w) case_module in
  reached case_types w /\ w_scope w 0 = md_types case_module /\ zlen (md_types case_module) <= 1000000 /\
  (exists t ps rs, r_sub_type_at M 2 = Some t /\ c_inner (s_comp t) = IFunc ps rs /\ zlen ps = 2) /\
  bytes_ok case_body /\ (exists ops, body_ops all_features 100 case_body = Ok ops /\ zlen ops = 13 /\ forallb has_rule ops = true) /\
  validate M case_features all_features 90 2 100 case_body = Body.Done tt /\
  (exists groups ops, body_locals all_features 100 case_body = Ok groups /\ body_ops all_features 100 case_body = Ok ops /\ func_ok M false 2 groups ops) /\
  ~ (exists groups ops, body_locals all_features 100 wrong_body = Ok groups /\ body_ops all_features 100 wrong_body = Ok ops /\ func_ok M false 2 groups ops).
Proof.
  intros w M. assert (R : reached case_types w) by (vm_compute; reflexivity).
  assert (B : bytes_ok case_body) by (repeat constructor; lia). assert (B' : bytes_ok wrong_body) by (repeat constructor; lia).
  assert (P : forall t ps rs, r_sub_type_at M 2 = Some t -> c_inner (s_comp t) = IFunc ps rs -> zlen ps <= 1000).
  { intros t ps rs. vm_compute r_sub_type_at. intros E. injection E as <-. cbn. intros E. injection E as <- _. vm_compute. discriminate. }
  assert (N : forall ops, body_ops all_features 100 case_body = Ok ops -> forallb has_rule ops = true) by (vm_compute; intros ops E; injection E as <-; reflexivity).
  assert (N' : forall ops, body_ops all_features 100 wrong_body = Ok ops -> forallb has_rule ops = true) by (vm_compute; intros ops E; injection E as <-; reflexivity).
  assert (V : validate M case_features all_features 90 2 100 case_body = Body.Done tt) by (vm_compute; reflexivity).
  assert (L : zlen (md_types case_module) <= 1000000) by (vm_compute; discriminate).
  split; [exact R |]. split; [vm_compute; reflexivity |]. split; [exact L |]. split; [do 3 eexists; vm_compute; repeat split |].
  split; [exact B |]. split; [eexists; vm_compute; repeat split |]. split; [exact V |].
  split; [exact (C16_sound_partial case_types w case_module case_features all_features 90 2 100 case_body R L P B ltac:(lia) N V) |].
  intros T. pose proof (C16_complete_partial case_types w case_module case_features all_features 90 2 100 wrong_body R L P B' ltac:(lia) N' ltac:(intros [] X; try reflexivity; congruence) T) as V'.
  vm_compute in V'. discriminate.
Qed.
Example C47_case :
  let M := module_resources (w_store (world_of case_types)) case_module in
  let F f := match f with f_gc | f_gc_types | f_reference_types | f_function_references => true | _ => false end in
  validate M F all_features 90 2 100 case_body = Body.Done tt /\
  (exists e, validate M (fun f => match f with f_gc => false | f => F f end) all_features 90 2 100 case_body = Body.Rejected e) /\
  (forall f, F f = true -> case_features f = true) /\ F f_custom_descriptors = case_features f_custom_descriptors.
Proof. split; [vm_compute; reflexivity |]. split; [eexists; vm_compute; reflexivity |]. split; [intros []; cbn; congruence | reflexivity]. Qed.

(** The rules of TypeSpec.v are those of the specification but for one type, of references to [any] (or [extern]) where it is not known whether they are
    shared, which converting an operand in unreachable code gives.  With the rules of the specification the result of that conversion is
    shared or is not.  So a body is accepted that has no type there: it branches from unreachable code to two labels, of which one expects a shared
    reference and the other one that is not. *)
Definition table_body : list Z :=
  [0; 2; 0x64; 0x6e; 2; 0x64; 0x65; 0x6e; 0; 0xfb; 0x1a; 0x41; 0; 0x0e; 1; 0; 1; 0x0b; 0; 0x0b; 0x1a; 0x0b].
Theorem C16_br_table_refuted : let h := [AddGroup 0 [mkS true None (mkC (IFunc [] []) false None None)]] in
  let w := world_of h in let M := module_resources (w_store w) (mkModul [0] [0] [] [] [] [] [] None [] 0 []) in
  reached h w /\
  validate M (fun _ => true) all_features 0 0 0 table_body = Body.Done tt /\
  exists b1 b2 t r1 r2,
    body_ops all_features 0 table_body =
      Ok [Op_Block b1; Op_Block b2; Op_Unreachable; Op_AnyConvertExtern; Op_I32Const 0; Op_BrTable t; Op_End; Op_Unreachable; Op_End; Op_Drop; Op_End] /\
    targets t = ([0], None) /\ pb_default t = 1 /\
    block_type (mkCtx M true false [] [] []) b1 = Some ([], [VRef r1]) /\ block_type (mkCtx M true false [] [] []) b2 = Some ([], [VRef r2]) /\
    (* what the specification lets [any.convert_extern] yield *)
    forall nullable shared, ~ (r_is_subtype M (VRef (abs nullable shared Any)) (VRef r1) = true /\ r_is_subtype M (VRef (abs nullable shared Any)) (VRef r2) = true).
Proof.
  intros h w M. split; [vm_compute; reflexivity |]. split; [vm_compute; reflexivity |].
  do 5 eexists. split; [vm_compute; reflexivity |]. split; [vm_compute; reflexivity |]. split; [vm_compute; reflexivity |].
  split; [vm_compute; reflexivity |]. split; [vm_compute; reflexivity |].
  intros [] [] [A B]; vm_compute in A, B; discriminate.
Qed.
Print Assumptions C16_br_table_refuted.
