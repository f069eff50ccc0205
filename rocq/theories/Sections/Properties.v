(** Whole modules: re-encoding with wasm-encoder; the name section. *)
From Verif.Base Require Import Prelude Utf8.
From Verif.Reader Require Import Model Spec.
From Verif.Leb Require Import Spec Model.
From Verif.Encoder Require Import Model.
From Verif.Types Require Import RefModel CodecModel EntityModel.
From Verif.Instr Require Import ImmModel Ops Sink Visit Convert BodyModel BodySpec ImmSpec Imms.
From Verif.Sections Require Import SegModel SegSpec SeeModel SeeProofs NameModel NameProofs ModuleModel ModuleProofs SectionsTop.
From Verif.Parser Require Import Model Spec.

(** ** C43: re-encoding a module with the default methods keeps everything in it

    If a module parses and everything in its sections can be read ([see_module]: every type, import,
    instruction, name and so on, in order, without positions), then translating it succeeds, and the module
    built from the translation -- the builders panic only when a length does not fit in 32 bits --
    parses and shows exactly the same contents. *)
Theorem C43_contents_kept : forall ft data tr V, bytes_ok data -> zlen data <= U64MAX -> ~ is_component data ->
  yields (parse_all_of (new_parser 0) data) tr None -> see_module ft tr = Some V ->
  exists es, reencode ft data tr = Some es /\
    forall out, build es = Some out -> zlen out <= U64MAX ->
      bytes_ok out /\ exists tr', yields (parse_all_of (new_parser 0) out) tr' None /\ see_module ft tr' = Some V.
Proof. exact contents_kept. Qed.
Print Assumptions C43_contents_kept.

(** ** C44: re-encoding is idempotent

    Translating a module that was built by re-encoding gives the same sections again, hence the same bytes. *)
Theorem C44_idempotent : forall ft data tr V es out, bytes_ok data -> zlen data <= U64MAX -> ~ is_component data ->
  yields (parse_all_of (new_parser 0) data) tr None -> see_module ft tr = Some V ->
  reencode ft data tr = Some es -> build es = Some out -> zlen out <= U64MAX ->
  exists tr' es', yields (parse_all_of (new_parser 0) out) tr' None /\ reencode ft out tr' = Some es' /\ build es' = Some out.
Proof. exact reencode_twice. Qed.
Print Assumptions C44_idempotent.

(** A module with every kind of section, some lengths and indices padded. *)
Definition sample : list Z := [0; 97; 115; 109; 1; 0; 0; 0; 1; 137; 0; 2; 96; 0; 0; 96; 1; 127; 1; 127; 2; 7; 1; 1; 97; 1; 98; 0; 0; 3; 3; 1; 129; 0; 4; 4; 1; 112; 0; 1; 5; 3; 1; 0; 1; 13; 3; 1; 0; 0; 6; 6; 1; 127; 1; 65; 42; 11; 7; 5; 1; 1; 102; 0; 1; 8; 1; 0; 9; 7; 1; 0; 65; 0; 11; 1; 1; 12; 1; 1; 10; 142; 0; 1; 12; 1; 1; 126; 32; 0; 14; 1; 0; 0; 65; 0; 11; 11; 8; 1; 0; 65; 0; 11; 2; 104; 105; 0; 19; 4; 110; 97; 109; 101; 1; 4; 1; 0; 1; 120; 2; 6; 1; 1; 1; 0; 1; 121; 0; 6; 2; 104; 105; 7; 8; 9; 20; 3; 1; 2; 3].
Example C43_case : exists tr V es out, bytes_ok sample /\ ~ is_component sample /\
  yields (parse_all_of (new_parser 0) sample) tr None /\ see_module all_features tr = Some V /\ List.length V = 19%nat /\
  reencode all_features sample tr = Some es /\ build es = Some out /\ out <> sample /\ zlen out <= U64MAX.
Proof.
  do 4 eexists. split; [repeat constructor; vm_compute; congruence|]. split; [intros [t E]; discriminate E|]. split.
  { do 18 (eapply yields_item; [vm_compute; reflexivity|reflexivity|]). eapply yields_last; [vm_compute; reflexivity|reflexivity]. }
  split; [vm_compute; reflexivity|]. split; [reflexivity|]. split; [vm_compute; reflexivity|]. split; [vm_compute; reflexivity|].
  split; [discriminate|]. vm_compute. discriminate.
Qed.

(** ** C45: name sections *)
(** What is written with [NameSection] is read as it was given, provided that the names of locals, labels
    and fields are at most 100000 bytes long. *)
Theorem C45_names_read_partial : forall ft l bs, Forall e_name_ok l -> enc_names l = Some bs ->
  bytes_ok bs /\ see_names ft bs = Some (map v_name l).
Proof. exact names_written. Qed.
Print Assumptions C45_names_read_partial.
Example C45_case : exists bs, enc_names [ENModule [109]; ENMap MFunctions [(0, [97]); (3, [])]; ENInd MLocals [(1, [(0, [120])])]] = Some bs /\
  see_names all_features bs = Some [SNModule [109]; SNMap PFunction [(0, [97]); (3, [])]; SNInd PLocal [(1, [(0, [120])])]].
Proof. eexists. split; [vm_compute; reflexivity|vm_compute; reflexivity]. Qed.
(** A name section that can be read is translated to one that is read the same. *)
Theorem C45_names_kept : forall ft data x, bytes_ok data -> see_names ft data = Some x ->
  exists l, c_names ft data = Some l /\ forall bs, enc_names l = Some bs -> bytes_ok bs /\ see_names ft bs = Some x.
Proof. exact names_again. Qed.
Print Assumptions C45_names_kept.
Example C45_kept_case : see_names all_features [1; 6; 1; 0x80; 0; 1; 97; 0] = None /\ see_names all_features [1; 5; 1; 0x80; 0; 1; 97] = Some [SNMap PFunction [(0, [97])]].
Proof. split; vm_compute; reflexivity. Qed.
(** Without the bound the claim is false: a local may be given a name that is accepted for a function but
    rejected for a local. *)
Theorem C45_refuted : exists name bs bs', bytes_ok name /\ utf8_valid name = true /\ zlen name < 2 ^ 32 /\
  enc_names [ENMap MFunctions [(0, name)]] = Some bs /\ see_names all_features bs = Some [SNMap PFunction [(0, name)]] /\
  enc_names [ENInd MLocals [(0, [(0, name)])]] = Some bs' /\ see_names all_features bs' = None.
Proof. exact long_local_name. Qed.
Print Assumptions C45_refuted.

(** ** C46: tables, globals, element and data segments *)
(** The definitions [table_def_ok] and so on say which values are meant, [v_table_def] and so on what a user
    should see of them. *)
Theorem C46_segments_read : forall ft,
  section_reads ft enc_table_def read_table_def (c_table_def ft) (see_table_def ft) v_table_def (table_def_ok ft) /\
  section_reads ft enc_global_def read_global_def (c_global_def ft) (see_global_def ft) v_global_def (global_def_ok ft) /\
  section_reads ft enc_elem read_elem (c_elem ft) (see_elem ft) v_elem (elem_ok ft) /\
  section_reads ft enc_data read_data (c_data ft) (see_data ft) v_data (data_ok ft).
Proof. exact segments_read. Qed.
Print Assumptions C46_segments_read.
Theorem C46_segments_translate : forall ft,
  section_translates ft read_table_def (c_table_def ft) (see_table_def ft) v_table_def (table_def_ok ft) /\
  section_translates ft read_global_def (c_global_def ft) (see_global_def ft) v_global_def (global_def_ok ft) /\
  section_translates ft read_elem (c_elem ft) (see_elem ft) v_elem (elem_ok ft) /\
  section_translates ft read_data (c_data ft) (see_data ft) v_data (data_ok ft).
Proof. exact segments_translate. Qed.
Print Assumptions C46_segments_translate.
Example C46_case :
  elem_ok all_features (mkElem (EActive (Some 3) [In_I32Const 7]) (EExprs (mkERef true (EAbs false RefModel.Extern)) [[In_RefNull (EAbs false RefModel.Extern)]])) /\
  enc_elem (mkElem (EActive (Some 3) [In_I32Const 7]) (EExprs (mkERef true (EAbs false RefModel.Extern)) [[In_RefNull (EAbs false RefModel.Extern)]])) =
    Some [6; 3; 0x41; 7; 0x0b; 0x6f; 1; 0xd0; 0x6f; 0x0b] /\
  match section_items read_elem all_features 0 [2; 6; 3; 0x41; 7; 0x0b; 0x6f; 1; 0xd0; 0x6f; 0x0b; 0; 0x41; 0x80; 0; 0x0b; 2; 5; 6] with
  | Ok ps => all_some (c_elem all_features) ps
  | Err _ => None
  end = Some [mkElem (EActive (Some 3) [In_I32Const 7]) (EExprs (mkERef true (EAbs false RefModel.Extern)) [[In_RefNull (EAbs false RefModel.Extern)]]);
              mkElem (EActive None [In_I32Const 0]) (EFuncs [5; 6])].
Proof.
  split; [|split; vm_compute; reflexivity].
  assert (C : forall i, plain i -> instr_ok all_features i -> const_ok all_features [i]).
  { intros i Hp Hi. split; [apply ne_plain; [exact Hp|apply ne_nil]|]. split; [intros [->|[]]; exact Hp|constructor; [exact Hi|constructor]]. }
  split; [split; [exact I|split; [constructor; [|constructor]|reflexivity]]|split; [cbn; unfold in_u; lia|split; [|discriminate]]].
  - apply C; [exact I|]. cbn. auto.
  - apply C; [exact I|]. cbn -[Z.pow]. unfold in_s. split; [lia|exact I].
Qed.
