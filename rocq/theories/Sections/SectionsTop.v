(** The statements of [Properties.v], from the lemmas. *)
From Verif.Base Require Import Prelude Utf8.
From Verif.Reader Require Import Model Spec.
From Verif.Leb Require Import Spec Model.
From Verif.Encoder Require Import Model.
From Verif.Codec Require Import Kit.
From Verif.Types Require Import CodecModel EntityModel.
From Verif.Sections Require Import SegModel SegSpec SeeModel Item SeeProofs SegProofs NameModel NameProofs ModuleModel ModuleProofs.
From Verif.Parser Require Import Model Spec.
From Coq Require Import Lia.

Lemma contents_kept ft data tr V : bytes_ok data -> zlen data <= U64MAX -> ~ is_component data ->
  yields (parse_all_of (new_parser 0) data) tr None -> see_module ft tr = Some V ->
  exists es, reencode ft data tr = Some es /\
    forall out, build es = Some out -> zlen out <= U64MAX ->
      bytes_ok out /\ exists tr', yields (parse_all_of (new_parser 0) out) tr' None /\ see_module ft tr' = Some V.
Proof.
  intros H1 H2 H3 H4 H5. destruct (module_kept ft data tr V H1 H2 H3 H4 H5) as (es & E & H). exists es. split; [exact E|].
  intros out Eo Ho. destruct (H out Eo Ho) as (Hb & tr' & Y & S & _). eauto.
Qed.
Lemma reencode_twice ft data tr V es out : bytes_ok data -> zlen data <= U64MAX -> ~ is_component data ->
  yields (parse_all_of (new_parser 0) data) tr None -> see_module ft tr = Some V ->
  reencode ft data tr = Some es -> build es = Some out -> zlen out <= U64MAX ->
  exists tr' es', yields (parse_all_of (new_parser 0) out) tr' None /\ reencode ft out tr' = Some es' /\ build es' = Some out.
Proof.
  intros H1 H2 H3 H4 H5 E Eo Ho. destruct (module_kept ft data tr V H1 H2 H3 H4 H5) as (es2 & E2 & H). rewrite E in E2. injection E2 as <-.
  destruct (H out Eo Ho) as (Hb & tr' & Y & S & R). exists tr', es. auto.
Qed.
Lemma names_again ft data x : bytes_ok data -> see_names ft data = Some x ->
  exists l, c_names ft data = Some l /\ forall bs, enc_names l = Some bs -> bytes_ok bs /\ see_names ft bs = Some x.
Proof.
  intros Hb E. destruct (names_kept ft data x Hb E) as (l & C & Hl & ->). exists l. split; [exact C|]. intros bs. apply names_written, Hl.
Qed.
Lemma long_local_name : exists name bs bs', bytes_ok name /\ utf8_valid name = true /\ zlen name < 2 ^ 32 /\
  enc_names [ENMap MFunctions [(0, name)]] = Some bs /\ see_names all_features bs = Some [SNMap PFunction [(0, name)]] /\
  enc_names [ENInd MLocals [(0, [(0, name)])]] = Some bs' /\ see_names all_features bs' = None.
Proof.
  set (name := repeat 97 (Z.to_nat 100001)).
  assert (Hb : bytes_ok name) by (apply Forall_forall; intros x H; apply repeat_spec in H; subst x; unfold is_byte; lia).
  assert (Hu : utf8_valid name = true) by (vm_compute; reflexivity).
  assert (Hz : zlen name = 100001) by (unfold zlen, name; rewrite repeat_length; lia).
  assert (H1 : match enc_names [ENMap MFunctions [(0, name)]] with Some _ => true | None => false end = true) by (vm_compute; reflexivity).
  assert (H2 : match enc_names [ENInd MLocals [(0, [(0, name)])]] with Some b => match see_names all_features b with None => true | _ => false end | None => false end = true) by (vm_compute; reflexivity).
  clearbody name.
  destruct (enc_names [ENMap MFunctions [(0, name)]]) as [bs|] eqn:E1; [|discriminate].
  destruct (enc_names [ENInd MLocals [(0, [(0, name)])]]) as [bs'|] eqn:E2; [|discriminate].
  exists name, bs, bs'. split; [exact Hb|]. split; [exact Hu|]. split; [lia|]. split; [exact E1|]. split.
  - apply (names_written all_features [ENMap MFunctions [(0, name)]] bs); [|exact E1].
    constructor; [|constructor]. split; [|change (zlen [(0, name)]) with 1; lia]. constructor; [|constructor].
    unfold naming_ok, in_u. cbn [fst snd]. repeat split; auto; lia.
  - split; [exact E2|]. destruct (see_names all_features bs'); [discriminate|reflexivity].
Qed.

(** A list of values is written, the section is read from any offset, and what is read shows what the values
    mean and is translated to them. *)
Definition section_reads {A B V} (ft : features) (enc : A -> out) (item : R B) (conv : B -> option A) (view : B -> option V) (mean : A -> V) (ok : A -> Prop) : Prop :=
  forall l, Forall ok l -> zlen l < 2 ^ 32 -> exists bs ps, o_vec enc l = Some bs /\ bytes_ok bs /\
    (forall off, section_items item ft off bs = Ok ps) /\ all_some conv ps = Some l /\ all_seen view ps = Some (map mean l).
(** Whatever section is accepted, all of it can be read, and it is translated to values with the same meaning
    that can be written. *)
Definition section_translates {A B V} (ft : features) (item : R B) (conv : B -> option A) (view : B -> option V) (mean : A -> V) (ok : A -> Prop) : Prop :=
  forall off bs ps, bytes_ok bs -> section_items item ft off bs = Ok ps ->
  exists l, all_some conv ps = Some l /\ Forall ok l /\ all_seen view ps = Some (map mean l).
Lemma reads_intro {A B V} ft (enc : A -> out) (item : R B) conv (view : B -> option V) mean ok :
  writes ft enc item conv ok -> keeps ft item conv view mean ok -> section_reads ft enc item conv view mean ok.
Proof.
  intros W K l Hl Hn. destruct (writes_section ft enc item conv ok l W Hl Hn) as (bs & ps & E & Hb & C & Hs). exists bs, ps.
  split; [exact E|]. split; [exact Hb|]. split; [exact Hs|]. split; [exact C|].
  destruct (keeps_section ft item conv view mean ok 0 bs ps K Hb (Hs 0)) as (l' & C' & _ & _ & S). rewrite C in C'. injection C' as <-. exact S.
Qed.
Lemma translates_intro {A B V} ft (item : R B) (conv : B -> option A) (view : B -> option V) mean ok :
  keeps ft item conv view mean ok -> section_translates ft item conv view mean ok.
Proof. intros K off bs ps Hb E. destruct (keeps_section ft item conv view mean ok off bs ps K Hb E) as (l & C & H & _ & S). eauto. Qed.
Lemma segments_read ft :
  section_reads ft enc_table_def read_table_def (c_table_def ft) (see_table_def ft) v_table_def (table_def_ok ft) /\
  section_reads ft enc_global_def read_global_def (c_global_def ft) (see_global_def ft) v_global_def (global_def_ok ft) /\
  section_reads ft enc_elem read_elem (c_elem ft) (see_elem ft) v_elem (elem_ok ft) /\
  section_reads ft enc_data read_data (c_data ft) (see_data ft) v_data (data_ok ft).
Proof.
  split; [apply reads_intro; [apply w_table_def|apply k_table_def]|]. split; [apply reads_intro; [apply w_global_def|apply k_global_def]|].
  split; apply reads_intro; [apply w_elem|apply k_elem|apply w_data|apply k_data].
Qed.
Lemma segments_translate ft :
  section_translates ft read_table_def (c_table_def ft) (see_table_def ft) v_table_def (table_def_ok ft) /\
  section_translates ft read_global_def (c_global_def ft) (see_global_def ft) v_global_def (global_def_ok ft) /\
  section_translates ft read_elem (c_elem ft) (see_elem ft) v_elem (elem_ok ft) /\
  section_translates ft read_data (c_data ft) (see_data ft) v_data (data_ok ft).
Proof.
  split; [apply translates_intro, k_table_def|]. split; [apply translates_intro, k_global_def|]. split; apply translates_intro; [apply k_elem|apply k_data].
Qed.
