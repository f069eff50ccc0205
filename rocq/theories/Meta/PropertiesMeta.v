(** C39: editing the metadata of a module or component. *)
From Verif.Base Require Import Prelude Utf8.
From Verif.Reader Require Import Model.
From Verif.Encoder Require Import Model.
From Verif.Types Require Import EntityModel.
From Verif.Sections Require Import SeeModel NameModel.
From Verif.Parser Require Import Model Spec.
From Verif.Meta Require Import Model Spec EditProofs Final ProducersProofs NamesProofs EffectProofs.
From Coq Require Import Lia.

(** * For the examples *)
Lemma doc_of data tr num e rg off items :
  yields (parse_all_of (new_parser 0) data) tr None -> tr = PVersion num e rg :: removelast (tl tr) ++ [PEnd off] -> reported data items (removelast (tl tr)) ->
  is_document data e items.
Proof. intros H E Hr. exists num, rg, (removelast (tl tr)), off. rewrite <- E. auto. Qed.
Lemma rep_section_ data pl id s e c items tr :
  as_section pl = Some (id, (s, e)) -> (forall q rg, pl <> PModule q rg /\ pl <> PComponent q rg) -> c = slice data s e ->
  reported data items tr -> reported data (Sec id c :: items) (pl :: tr).
Proof. intros H1 H2 ->. apply rep_section; assumption. Qed.
Lemma rep_nested_ data pl id q rg num e rg' sub tr1 off items tr2 tr :
  (id = 1 /\ pl = PModule q rg) \/ (id = 4 /\ pl = PComponent q rg) -> tr = PVersion num e rg' :: tr1 ++ PEnd off :: tr2 ->
  reported data sub tr1 -> reported data items tr2 -> reported data (Sub id e sub :: items) (pl :: tr).
Proof. intros H1 -> H2 H3. eapply rep_nested; eassumption. Qed.
Ltac run := repeat first [eapply yields_last; [vm_compute; reflexivity|reflexivity] | eapply yields_item; [vm_compute; reflexivity|reflexivity|]].
Ltac rep := cbn [removelast tl]; repeat first [apply rep_nil | eapply rep_section_; [reflexivity|intros; split; discriminate|vm_compute; reflexivity|]].
Ltac doc := eapply doc_of; [run|vm_compute; reflexivity|rep].
Ltac bytes := repeat constructor; vm_compute; discriminate.
Definition the_header : list Z := [0; 97; 115; 109; 1; 0; 0; 0].
(** A short section, and the contents of a custom one. *)
Definition short (id : Z) (c : list Z) : list Z := id :: zlen c :: c.
Definition text (s : string) : list Z := zlen (lit s) :: lit s.
Definition cust (name : string) (d : list Z) : list Z := text name ++ d.

(** * Documents *)
(** What [parse_all] reads without error is a module or component, with items that are determined. *)
Theorem C39_document : forall data tr, bytes_ok data -> zlen data <= U64MAX ->
  yields (parse_all_of (new_parser 0) data) tr None ->
  exists e items, is_document data e items /\ forall e' items', is_document data e' items' -> e' = e /\ items' = items.
Proof.
  intros data tr Hb Hl Hy. destruct (document_exists _ _ Hb Hl Hy) as (e & items & Hd). exists e, items. split; [exact Hd|].
  intros e' items' Hd'. exact (document_unique _ _ _ _ _ Hd' Hd).
Qed.
Print Assumptions C39_document.

(** * Nothing else changes *)
(** Missing: items are those that a reader finds; the number of bytes in which the length of a section or of a
    nested module is written may change ([C39_bytes_refuted]); a component in a section for modules is moved
    to one for components ([C39_kind_refuted]). *)
Theorem C39_preserves_partial : forall tp m add data tr out e items,
  bytes_ok data -> zlen data <= U64MAX -> yields (parse_all_of (new_parser 0) data) tr None ->
  rewrite_wasm tp m add data tr = Some out -> bytes_ok out -> zlen out <= U64MAX ->
  is_document data e items -> Forall well_kinded items ->
  exists items' extra l bs,
    is_document out e (items' ++ extra) /\ edited (effect tp m add) items items' /\ customs l extra /\ appended m add e items l /\
    out = header e ++ bs /\ laid_out (items' ++ extra) bs.
Proof.
  intros tp m add data tr out e items Hb Hl Hy Hr Hb' Hl' Hd Hw.
  destruct (rewrite_document _ _ _ _ _ _ _ _ Hb Hl Hy Hr Hb' Hl' Hd Hw) as (items' & l & extra & tr' & cb & Hd' & Hy' & He & Ha & Hc & Hca & Ho).
  destruct (canon_app_inv _ _ _ Hca) as (ca & cc & _ & Hca1 & Hca2). exists items', extra, l, cb. split; [exact Hd'|]. split; [|split; [exact Hc|split; [|split]]].
  - destruct Hd as (num & rg & tr0 & off & _ & Hrep). eapply edited_effect; [exact He|intros id c; eapply reported_bytes; eauto|exact Hca1].
  - apply added_appended; [exact Ha|]. eapply customs_short; eauto.
  - rewrite Ho. destruct e; reflexivity.
  - apply canon_laid; [exact Hca|]. apply Forall_app. split; [eapply edited_kinded; eauto|eapply customs_kinded; eauto].
Qed.
Print Assumptions C39_preserves_partial.

(** If there is no metadata, nothing is to be added and lengths are in as few bytes as possible, the file is
    the same, byte for byte. *)
Theorem C39_unchanged : forall tp m data tr out e items bs,
  bytes_ok data -> zlen data <= U64MAX -> yields (parse_all_of (new_parser 0) data) tr None ->
  rewrite_wasm tp m [] data tr = Some out -> bytes_ok out -> zlen out <= U64MAX ->
  is_document data e items -> Forall well_kinded items ->
  (forall name i, In i items -> ~ metadata name i) -> (forall v, am_name m <> Set_ v) -> (forall o v, am_oci m o <> Set_ v) ->
  data = header e ++ bs -> laid_out items bs ->
  out = data.
Proof.
  intros tp m data tr out e items bs Hb Hl Hy Hr Hb' Hl' Hd Hw Hno Hn Ho -> Hlo.
  destruct (C39_preserves_partial _ _ _ _ _ _ _ _ Hb Hl Hy Hr Hb' Hl' Hd Hw) as (items' & extra & l & bs' & Hd' & He & Hc & (ns & ps & -> & Hns & Hps) & -> & Hlo').
  rewrite (edited_same _ _ _ He Hno) in *. destruct Hns as [(-> & _)|(_ & v & d & E & _)]; [|exfalso; eapply Hn; eauto].
  destruct Hps as [(-> & _)|(_ & E & _)]; [|congruence].
  assert (E : List.concat (map (fun o => match am_oci m o with Set_ d => [(oci_name o, d)] | _ => [] end) all_oci) = []).
  { generalize all_oci. induction l as [|o l IH]; [reflexivity|]. cbn [map List.concat]. destruct (am_oci m o) eqn:Eo; [exact IH|exact IH|exfalso; eapply Ho; eauto]. }
  rewrite E in Hc. inversion Hc; subst. rewrite app_nil_r in Hlo'. f_equal. eapply laid_out_fun; eauto.
Qed.
Print Assumptions C39_unchanged.
Example C39_unchanged_case : exists tr out items bs,
  let data := component_header ++ short 1 (the_header ++ short 1 [0]) ++ short 0 (cust "x" [1]) in
  bytes_ok data /\ yields (parse_all_of (new_parser 0) data) tr None /\ rewrite_wasm (mkText Some Some) keep_all [] data tr = Some out /\
  is_document data EComponent items /\ items = [Sub 1 EModule [Sec 1 [0]]; Sec 0 (cust "x" [1])] /\ Forall well_kinded items /\ data = header EComponent ++ bs /\ laid_out items bs.
Proof.
  do 4 eexists. cbv zeta. split; [bytes|]. split; [run|]. split; [vm_compute; reflexivity|]. split.
  { eapply doc_of; [run|vm_compute; reflexivity|cbn [removelast tl]; eapply (rep_nested_ _ _ _ _ _ _ _ _ _ [_]); [left; auto|reflexivity|rep|rep]]. }
  split; [reflexivity|]. split; [repeat constructor|]. split; [reflexivity|].
  assert (S : forall n, 0 <= n < 128 -> shortest [n] n).
  { intros n Hn. split; [apply Verif.Leb.Spec.uN_last; [change (2 ^ 7) with 128; lia|change (2 ^ 32) with 4294967296; lia]|].
    intros lb' H. destruct H; rewrite !zlen_cons, ?zlen_nil; try lia. pose proof (zlen_nonneg bs). lia. }
  apply (lo_nested 1 EModule [Sec 1 [0]] (short 1 [0]) [11]); [apply (lo_section 1 [0] [1] [] []); [apply S; vm_compute; split; congruence|constructor]|apply S; vm_compute; split; congruence|].
  apply (lo_section 0 (cust "x" [1]) [3] [] []); [apply S; vm_compute; split; congruence|constructor].
Qed.

(** * Producers are merged by name *)
(** What [Producers::from_wasm] reads after the edit is what it read before, with what was to be added. *)
Theorem C39_merged : forall tp m add data tr out tr' e items,
  bytes_ok data -> zlen data <= U64MAX -> yields (parse_all_of (new_parser 0) data) tr None ->
  rewrite_wasm tp m add data tr = Some out -> bytes_ok out -> zlen out <= U64MAX ->
  is_document data e items -> Forall well_kinded items -> producers_ok add ->
  yields (parse_all_of (new_parser 0) out) tr' None ->
  exists before after, producers_from_wasm 0 tr = Some before /\ producers_from_wasm 0 tr' = Some after /\
    match before, after with
    | Some p, Some p' => merged p add p'
    | None, Some p' => merged [] add p'
    | None, None => add = []
    | Some _, None => False
    end.
Proof.
  intros tp m add data tr out tr' e items Hb Hl Hy Hr Hb' Hl' Hd Hw Hok Hy'.
  destruct (C39_preserves_partial _ _ _ _ _ _ _ _ Hb Hl Hy Hr Hb' Hl' Hd Hw) as (items' & extra & l & bs & Hd' & He & Hc & Ha & _).
  destruct (from_wasm_first _ _ _ _ Hb Hl Hy Hd) as (Hf & Hn). destruct (from_wasm_first _ _ _ _ Hb' Hl' Hy' Hd') as (Hf' & Hn').
  destruct (document_first _ _ _ _ Hb Hl Hy Hd) as [(d & Hfd)|Hno].
  - destruct (edited_first _ _ _ _ _ He Hok _ Hfd) as (p & d' & p' & H1 & H2 & H3 & H4).
    rewrite (Hf _ Hfd), (Hf' d' (first_app _ extra _ H2)), H1, H3. cbn. do 2 eexists. split; [reflexivity|]. split; [reflexivity|]. exact H4.
  - pose proof (edited_none _ _ _ _ _ He Hno) as Hno'. rewrite (Hn Hno). destruct Ha as (ns & ps & -> & Hns & Hps).
    destruct (customs_split _ _ _ Hc) as (xa & xb & -> & Hca & Hcb). destruct (customs_split _ _ _ Hcb) as (xc & xd & -> & Hcc & Hcd).
    assert (Hxa : ~ has_producers xa).
    { eapply customs_none; [exact Hca|]. intros d Hin. destruct Hns as [(-> & _)|(_ & v & d0 & _ & Hns)]; [destruct Hin|].
      destruct e; destruct Hns as (-> & _); destruct Hin as [E|[]]; discriminate. }
    assert (Hxd : ~ has_producers xd) by (eapply customs_none; [exact Hcd|intros d; apply oci_not_producers]).
    destruct Hps as [(-> & Hps)|(_ & Hne & d & -> & Hps)].
    + inversion Hcc; subst. rewrite Hn' by (apply none_app; [exact Hno'|apply none_app; [exact Hxa|exact Hxd]]). do 2 eexists. split; [reflexivity|]. split; [reflexivity|].
      cbn. tauto.
    + destruct (Hps Hok) as (p' & Hp & Hm). inversion Hcc as [|name d1 c l1 it1 Hin Hcu Hc1]; subst. inversion Hc1; subst.
      rewrite (Hf' d).
      * rewrite Hp. cbn. do 2 eexists. split; [reflexivity|]. split; [reflexivity|]. exact Hm.
      * apply first_after; [exact Hno'|]. apply first_after; [exact Hxa|]. apply first_app. exists [], c, []. split; [reflexivity|].
        split; [intros (? & ? & [] & _)|]. split; [exact Hcu|]. eapply count_of_read; eauto.
Qed.
Print Assumptions C39_merged.

(** A producers section is read back as it was written. *)
Theorem C39_producers_read_back : forall p d, producers_ok p -> producers_data p = Some d -> zlen d < 2 ^ 32 -> producers_from_bytes d = Some p.
Proof. intros p d Hp Ed Hl. destruct (producers_written p d (producers_pre _ Hp) Ed Hl) as (_ & H & _). exact H. Qed.
Print Assumptions C39_producers_read_back.

(** A module with a type section, a name section, a custom section and a producers section; the name and the
    version are set and a producer is added. *)
Definition c39_types : list Z := [1; 0x60; 0; 0].
Definition c39_names : list Z := short 0 (text "m") ++ short 1 (1 :: 0 :: text "f").
Definition c39_producers : list Z := 1 :: text "language" ++ 1 :: text "C" ++ text "11".
Definition c39_data : list Z :=
  the_header ++ short 1 c39_types ++ short 0 (cust "name" c39_names) ++ short 0 (cust "x" [7]) ++ short 0 (cust "producers" c39_producers).
Definition c39_items : list item :=
  [Sec 1 c39_types; Sec 0 (cust "name" c39_names); Sec 0 (cust "x" [7]); Sec 0 (cust "producers" c39_producers)].
Definition c39_edit : add_metadata := mkAdd (Set_ (lit "n")) (fun o => match o with Version => Set_ (lit "2") | _ => Keep end).
Definition c39_add : producers := p_add (p_add [] (lit "language") (lit "Rust") (lit "2021")) (lit "sdk") (lit "k") (lit "1").
Definition c39_tp : text_parsers := mkText Some Some.
Example C39_case : exists tr out tr',
  bytes_ok c39_data /\ zlen c39_data <= U64MAX /\ yields (parse_all_of (new_parser 0) c39_data) tr None /\
  rewrite_wasm c39_tp c39_edit c39_add c39_data tr = Some out /\ bytes_ok out /\ zlen out <= U64MAX /\
  is_document c39_data EModule c39_items /\ Forall well_kinded c39_items /\ producers_ok c39_add /\
  yields (parse_all_of (new_parser 0) out) tr' None /\
  producers_from_wasm 0 tr' = Some (Some [(lit "language", [(lit "C", lit "11"); (lit "Rust", lit "2021")]); (lit "sdk", [(lit "k", lit "1")])]) /\
  is_document out EModule
    [Sec 1 c39_types; Sec 0 (cust "name" (short 0 (text "n") ++ short 1 (1 :: 0 :: text "f"))); Sec 0 (cust "x" [7]);
     Sec 0 (cust "producers" (2 :: text "language" ++ 2 :: text "C" ++ text "11" ++ text "Rust" ++ text "2021" ++ text "sdk" ++ 1 :: text "k" ++ text "1"));
     Sec 0 (cust "version" (lit "2"))].
Proof.
  do 3 eexists. split; [bytes|]. split; [vm_compute; discriminate|]. split; [run|]. split; [vm_compute; reflexivity|].
  split; [bytes|]. split; [vm_compute; discriminate|]. split; [doc|]. split; [repeat constructor|].
  split.
  { split; [vm_compute; repeat constructor; cbn; intuition discriminate|].
    apply Forall_cons; [|apply Forall_cons; [|apply Forall_nil]]; (split; [vm_compute; tauto|split; [vm_compute; repeat constructor; cbn; intuition discriminate|]]);
      (split; [|vm_compute; reflexivity]); (apply Forall_cons; [|apply Forall_nil]); (split; (split; [bytes|split; [vm_compute; reflexivity|vm_compute; discriminate]])). }
  split; [run|]. split; [vm_compute; reflexivity|]. doc.
Qed.

(** * What does not hold *)
(** "Clear" for the name also drops the names of functions, locals and so on. *)
Theorem C39_clear_refuted : forall tp, exists data tr out d,
  bytes_ok data /\ yields (parse_all_of (new_parser 0) data) tr None /\
  is_document data EModule [Sec 0 (cust "name" d)] /\
  see_names all_features d = Some [SNModule (lit "m"); SNMap PFunction [(0, lit "f")]] /\
  rewrite_wasm tp (mkAdd Clear (fun _ => Keep)) [] data tr = Some out /\
  is_document out EModule [Sec 0 (cust "name" [])].
Proof.
  intros tp. exists (the_header ++ short 0 (cust "name" c39_names)). do 2 eexists. exists c39_names. split; [bytes|]. split; [run|]. split; [doc|].
  split; [vm_compute; reflexivity|]. split; [vm_compute; reflexivity|]. doc.
Qed.
Print Assumptions C39_clear_refuted.

(** A version, or another annotation, that is there is not replaced: the new one comes after it. *)
Theorem C39_set_refuted : forall tp, exists data tr out,
  bytes_ok data /\ yields (parse_all_of (new_parser 0) data) tr None /\
  is_document data EModule [Sec 0 (cust "version" (lit "1"))] /\
  rewrite_wasm tp (mkAdd Keep (fun o => match o with Version => Set_ (lit "2") | _ => Keep end)) [] data tr = Some out /\
  is_document out EModule [Sec 0 (cust "version" (lit "1")); Sec 0 (cust "version" (lit "2"))].
Proof.
  intros tp. exists (the_header ++ short 0 (cust "version" (lit "1"))). do 2 eexists. split; [bytes|]. split; [run|]. split; [doc|].
  split; [vm_compute; reflexivity|]. doc.
Qed.
Print Assumptions C39_set_refuted.

(** A producers field of another name, which [Producers::add] takes, makes a section that cannot be read. *)
Theorem C39_field_refuted : forall tp, exists data tr out tr',
  bytes_ok data /\ yields (parse_all_of (new_parser 0) data) tr None /\ producers_from_wasm 0 tr = Some None /\
  rewrite_wasm tp keep_all (p_add [] (lit "tool") (lit "t") (lit "1")) data tr = Some out /\
  yields (parse_all_of (new_parser 0) out) tr' None /\ producers_from_wasm 0 tr' = None.
Proof.
  intros tp. exists the_header. do 3 eexists. split; [bytes|]. split; [run|]. split; [vm_compute; reflexivity|].
  split; [vm_compute; reflexivity|]. split; [run|vm_compute; reflexivity].
Qed.
Print Assumptions C39_field_refuted.

(** Names in subsections that are not known are dropped, although nothing is to be edited. *)
Theorem C39_unknown_names_refuted : forall tp, exists data tr out d,
  bytes_ok data /\ yields (parse_all_of (new_parser 0) data) tr None /\
  is_document data EModule [Sec 0 (cust "name" d)] /\ see_names all_features d = Some [SNUnknown 100 [5]; SNModule (lit "m")] /\
  rewrite_wasm tp keep_all [] data tr = Some out /\
  is_document out EModule [Sec 0 (cust "name" (short 0 (text "m")))].
Proof.
  intros tp. exists (the_header ++ short 0 (cust "name" (short 100 [5] ++ short 0 (text "m")))). do 2 eexists. exists (short 100 [5] ++ short 0 (text "m")).
  split; [bytes|]. split; [run|]. split; [doc|]. split; [vm_compute; reflexivity|]. split; [vm_compute; reflexivity|]. doc.
Qed.
Print Assumptions C39_unknown_names_refuted.

(** Of two producers fields of one name only the last is kept. *)
Theorem C39_duplicates_refuted : forall tp, exists data tr out d d',
  bytes_ok data /\ yields (parse_all_of (new_parser 0) data) tr None /\
  is_document data EModule [Sec 0 (cust "producers" d)] /\
  d = 2 :: text "language" ++ (1 :: text "C" ++ text "11") ++ text "language" ++ (1 :: text "Rust" ++ text "2021") /\
  rewrite_wasm tp keep_all [] data tr = Some out /\
  is_document out EModule [Sec 0 (cust "producers" d')] /\ d' = 1 :: text "language" ++ (1 :: text "Rust" ++ text "2021").
Proof.
  intros tp. exists (the_header ++ short 0 (cust "producers" (2 :: text "language" ++ (1 :: text "C" ++ text "11") ++ text "language" ++ (1 :: text "Rust" ++ text "2021")))).
  do 4 eexists. split; [bytes|]. split; [run|]. split; [doc|]. split; [reflexivity|]. split; [vm_compute; reflexivity|]. split; [doc|reflexivity].
Qed.
Print Assumptions C39_duplicates_refuted.

(** A component in a section for modules is moved to a section for components. *)
Theorem C39_kind_refuted : forall tp, exists data tr out,
  bytes_ok data /\ yields (parse_all_of (new_parser 0) data) tr None /\
  is_document data EComponent [Sub 1 EComponent []] /\
  rewrite_wasm tp keep_all [] data tr = Some out /\ is_document out EComponent [Sub 4 EComponent []].
Proof.
  intros tp. exists (component_header ++ short 1 component_header). do 2 eexists. split; [bytes|]. split; [run|].
  split; [eapply doc_of; [run|vm_compute; reflexivity|cbn [removelast tl]; eapply (rep_nested_ _ _ _ _ _ _ _ _ _ []); [left; auto|reflexivity|constructor|constructor]]|].
  split; [vm_compute; reflexivity|].
  eapply doc_of; [run|vm_compute; reflexivity|cbn [removelast tl]; eapply (rep_nested_ _ _ _ _ _ _ _ _ _ []); [right; auto|reflexivity|constructor|constructor]].
Qed.
Print Assumptions C39_kind_refuted.

(** Lengths are written anew, in as few bytes as possible: the bytes of the file can change when nothing is to
    be edited and it has no metadata. *)
Theorem C39_bytes_refuted : forall tp, exists data tr out,
  bytes_ok data /\ yields (parse_all_of (new_parser 0) data) tr None /\ is_document data EModule [Sec 1 [0]] /\
  rewrite_wasm tp keep_all [] data tr = Some out /\ is_document out EModule [Sec 1 [0]] /\ out <> data.
Proof.
  intros tp. exists (the_header ++ [1; 0x81; 0; 0]). do 2 eexists. split; [bytes|]. split; [run|]. split; [doc|].
  split; [vm_compute; reflexivity|]. split; [doc|vm_compute; discriminate].
Qed.
Print Assumptions C39_bytes_refuted.
