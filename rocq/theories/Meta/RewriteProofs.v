(** What the rewriting writes is the document with its metadata edited. *)
From Verif.Base Require Import Prelude Utf8.
From Verif.Reader Require Import Model Spec Mono.
From Verif.Leb Require Import Spec Model Proofs ReaderProofs Top.
From Verif.Encoder Require Import Model.
From Verif.Parser Require Import Model Proofs Spec Stream Shape Chunks Complete Tiling Module Forward Encoded.
From Verif.Meta Require Import Model Spec Doc DocWrite DocCanon.
From Coq Require Import Lia.

Ltac lst := do 3 (cbn [app]; repeat rewrite <- app_assoc); reflexivity.
Lemma same_eq a b : same a b = true <-> a = b.
Proof. apply bytes_eqb_eq. Qed.
Lemma same_refl a : same a a = true.
Proof. now apply same_eq. Qed.

(** * Reports *)
Lemma slice_at data pre bs post s : data = pre ++ bs ++ post -> s = zlen pre -> slice data s (s + zlen bs) = bs.
Proof. intros -> E. apply slice_mid, E. Qed.
Lemma code_skip data pos bs pls : code_entries_at pos bs pls -> forall items tr, reported data items tr -> reported data items (pls ++ tr).
Proof. induction 1; intros items tr Hr; cbn [app]; [exact Hr|constructor; auto]. Qed.

Lemma section_slice p pl id lenb c p1 data pre post : section_step p pl id lenb c p1 -> data = pre ++ (id :: lenb ++ c) ++ post -> p_offset p = zlen pre ->
  slice data (p_offset p + 1 + zlen lenb) (p_offset p + 1 + zlen lenb + zlen c) = c.
Proof.
  intros _ -> Ho. apply (slice_at _ (pre ++ id :: lenb) _ post).
  - lst.
  - rewrite zlen_app, zlen_cons. lia.
Qed.

Theorem holds_reported x p items tr bs p' : holds x p items tr bs p' -> forall data pre post, data = pre ++ bs ++ post -> p_offset p = zlen pre -> reported data items tr.
Proof.
  induction 1 as [p|p pl id lenb c p1 items tr bs p' Hst Hu Has Hn Hc Hl H IH|p lenb cb ents ebs p1 items tr bs p' Hst Hu Hce Hl H IH
    |p id lenb len s p1 num e rg c1 sub tr1 bs1 c2 c3 items tr2 bs2 p' Hid Hs Hu Hst Ho Hlim Hv H8 H1 IH1 He Hx H2 IH2]; intros data pre post Ed Ep.
  - constructor.
  - pose proof (section_slice _ _ _ _ _ _ data pre (bs ++ post) (conj Hst (conj Hu (conj Has (conj Hn Hc))))) as Hsl.
    rewrite <- app_assoc in Ed. specialize (Hsl Ed Ep).
    rewrite <- Hsl at 1. econstructor; [exact Has|intros q rg; split; intros ->; apply Hn; exact I|].
    pose proof (pstep_frame _ _ _ _ _ Hst) as (_ & Fo & _). specialize (Fo Hn).
    apply (IH data (pre ++ (id :: lenb ++ c)) post); [rewrite Ed; lst|rewrite zlen_app; lia].
  - assert (Ed' : data = (pre ++ 10 :: lenb) ++ (cb ++ ebs) ++ bs ++ post) by (rewrite Ed; lst).
    rewrite <- (slice_at data (pre ++ 10 :: lenb) (cb ++ ebs) (bs ++ post) (p_offset p + 1 + zlen lenb) Ed') at 1; [|rewrite zlen_app, zlen_cons; lia].
    econstructor; [reflexivity|intros q rg; split; discriminate|]. eapply code_skip; [exact Hce|].
    pose proof (pstep_frame _ _ _ _ _ Hst) as (_ & Fo & _). specialize (Fo (fun x => x)). rewrite zlen_cons, zlen_app in Fo.
    apply (IH data ((pre ++ 10 :: lenb) ++ (cb ++ ebs)) post); [rewrite Ed'; lst|].
    cbn [p_offset set_state set_offset]. rewrite !zlen_app, zlen_cons. lia.
  - assert (Hh : zlen (header_of e) = 8) by (destruct e; reflexivity).
    eapply (rep_nested data (nested_payload id (child p s (s + len)) (s, s + len)) id).
    + unfold nested_payload. destruct Hid as [-> | ->]; [left|right]; split; reflexivity.
    + pose proof (pstep_frame _ _ _ _ _ Hv) as (_ & Fo & _). specialize (Fo (fun x => x)). cbn [child p_offset] in Fo.
      apply (IH1 data (pre ++ (id :: lenb) ++ header_of e) (bs2 ++ post)); [rewrite Ed; lst|].
      rewrite !zlen_app, zlen_cons. lia.
    + destruct Hx as [Hx|(_ & -> & Hx)].
      * apply (IH2 data (pre ++ (id :: lenb) ++ header_of e ++ bs1) post); [rewrite Ed; lst|]. rewrite !zlen_app, zlen_cons. lia.
      * destruct (holds_nil _ _ _ _ _ _ H2 eq_refl) as (-> & -> & _). constructor.
Qed.

(** * Inside nested modules and components everything is written as it was *)
Lemma code_pass tp m add data pos bs pls : code_entries_at pos bs pls -> forall s k, rewrite_loop tp m add data s (pls ++ k) = rewrite_loop tp m add data s k.
Proof. induction 1; intros s k; cbn [app rewrite_loop]; [reflexivity|]. cbn [rewrite_payload pass as_section option_map]. apply IHcode_entries_at. Qed.
Lemma emit_emit s a b : emit (emit s a) b = emit s (a ++ b).
Proof. destruct s. unfold emit. cbn. now rewrite <- app_assoc. Qed.
Lemma emit_nil s : emit s [] = s.
Proof. destruct s. unfold emit. cbn. now rewrite app_nil_r. Qed.
Lemma starts_with_app a b : starts_with a (a ++ b) = true.
Proof. induction a as [|x a IH]; [reflexivity|]. cbn. now rewrite Z.eqb_refl, IH. Qed.
Lemma starts_header e b : (if starts_with component_header (header_of e ++ b) then 4 else 1) = kind e.
Proof. destruct e; [reflexivity|]. unfold header_of. now rewrite starts_with_app. Qed.

Lemma pass_section tp m add data p pl id lenb c p1 pre post s k s' :
  section_step p pl id lenb c p1 -> data = pre ++ (id :: lenb ++ c) ++ post -> p_offset p = zlen pre ->
  (rw_stack s <> [] \/ forall rg b name d, pl <> PCustom rg b name d) ->
  rewrite_loop tp m add data s (pl :: k) = Some s' -> exists b, encode_bytes c = Some b /\ rewrite_loop tp m add data (emit s (id :: b)) k = Some s'.
Proof.
  intros Hst Ed Ep Hc E. pose proof (section_slice _ _ _ _ _ _ data pre post Hst Ed Ep) as Hsl. destruct Hst as (Hst & Hu & Has & Hn & Hcd).
  assert (Er : rewrite_payload tp m add data s pl = option_map (fun s => (s, false)) (pass data s pl)).
  { destruct pl; try reflexivity; try (exfalso; apply Hn; exact I); try discriminate Has.
    cbn [rewrite_payload]. destruct (rw_stack s); [|reflexivity]. destruct Hc as [Hc|Hc]; [congruence|]. exfalso. eapply Hc. reflexivity. }
  cbn [rewrite_loop] in E. rewrite Er in E. unfold pass in E. rewrite Has, Hsl in E. unfold module_section in E.
  destruct (encode_bytes c) as [b|] eqn:Eb; [|discriminate]. cbn [option_map] in E. exists b. auto.
Qed.
Lemma pass_code tp m add data n l lenb cb ebs pos pre post s k s' :
  data = pre ++ (10 :: lenb ++ cb ++ ebs) ++ post -> pos = zlen pre ->
  rewrite_loop tp m add data s (PCodeStart n (pos + 1 + zlen lenb, pos + 1 + zlen lenb + zlen (cb ++ ebs)) l :: k) = Some s' ->
  exists b, encode_bytes (cb ++ ebs) = Some b /\ rewrite_loop tp m add data (emit s (10 :: b)) k = Some s'.
Proof.
  intros Ed Ep E. cbn [rewrite_loop rewrite_payload pass as_section] in E.
  rewrite (slice_at data (pre ++ 10 :: lenb) (cb ++ ebs) post) in E.
  - unfold module_section in E. destruct (encode_bytes (cb ++ ebs)) as [b|]; [|discriminate]. cbn [option_map] in E. exists b. auto.
  - rewrite Ed. lst.
  - rewrite zlen_app, zlen_cons. lia.
Qed.
Lemma loop_nested_start tp m add data s id q rg num e rg' k :
  rewrite_loop tp m add data s (nested_payload id q rg :: PVersion num e rg' :: k) = rewrite_loop tp m add data (mkRw (rw_producers s) (rw_names s) (rw_out s :: rw_stack s) (header_of e)) k.
Proof. unfold nested_payload. destruct (id =? 1); reflexivity. Qed.
Lemma loop_nested_end tp m add data pr nm o st e b off k s' :
  rewrite_loop tp m add data (mkRw pr nm (o :: st) (header_of e ++ b)) (PEnd off :: k) = Some s' ->
  exists eb, encode_bytes (header_of e ++ b) = Some eb /\ rewrite_loop tp m add data (mkRw pr nm st (o ++ kind e :: eb)) k = Some s'.
Proof.
  cbn [rewrite_loop rewrite_payload rw_stack rw_out]. rewrite starts_header. destruct (encode_bytes (header_of e ++ b)) as [eb|]; [|discriminate]. cbn [rw_producers rw_names]. eauto.
Qed.

Theorem loop_nested x p items tr bs p' : holds x p items tr bs p' -> forall tp m add data pre post s k s', data = pre ++ bs ++ post -> p_offset p = zlen pre ->
  rw_stack s <> [] -> rewrite_loop tp m add data s (tr ++ k) = Some s' ->
  exists cb, canon items cb /\ rewrite_loop tp m add data (emit s cb) k = Some s'.
Proof.
  induction 1 as [p|p pl id lenb c p1 items tr bs p' Hst Hu Has Hn Hc Hl H IH|p lenb cb ents ebs p1 items tr bs p' Hst Hu Hce Hl H IH
    |p id lenb len s p1 num e rg c1 sub tr1 bs1 c2 c3 items tr2 bs2 p' Hid Hs Hu Hst Ho Hlim Hv H8 H1 IH1 He Hx H2 IH2]; intros tp m add data pre post st k s' Ed Ep Hstk E.
  - exists []. split; [constructor|]. rewrite emit_nil. exact E.
  - rewrite <- app_assoc in Ed. destruct (pass_section _ _ _ _ _ _ _ _ _ _ _ _ _ _ _ (conj Hst (conj Hu (conj Has (conj Hn Hc)))) Ed Ep (or_introl Hstk) E) as (b & Eb & E').
    pose proof (pstep_frame _ _ _ _ _ Hst) as (_ & Fo & _). specialize (Fo Hn).
    destruct (IH tp m add data (pre ++ (id :: lenb ++ c)) post (emit st (id :: b)) _ _ ltac:(rewrite Ed; lst) ltac:(rewrite zlen_app; lia) ltac:(exact Hstk) E') as (cb & Hca & E2).
    exists ((id :: b) ++ cb). split; [constructor; assumption|]. rewrite <- emit_emit. exact E2.
  - rewrite <- app_assoc in Ed. rewrite <- app_comm_cons, <- app_assoc in E.
    destruct (pass_code _ _ _ _ _ _ _ _ _ _ _ _ _ _ _ Ed Ep E) as (b & Eb & E'). rewrite (code_pass _ _ _ _ _ _ _ Hce) in E'.
    pose proof (pstep_frame _ _ _ _ _ Hst) as (_ & Fo & _). specialize (Fo (fun x => x)). rewrite zlen_cons, zlen_app in Fo.
    destruct (IH tp m add data (pre ++ (10 :: lenb ++ cb ++ ebs)) post (emit st (10 :: b)) _ _ ltac:(rewrite Ed; lst)
       ltac:(cbn [p_offset set_state set_offset]; rewrite !zlen_app, zlen_cons, !zlen_app; lia) ltac:(exact Hstk) E') as (cb2 & Hca & E2).
    exists ((10 :: b) ++ cb2). split; [constructor; assumption|]. rewrite <- emit_emit. exact E2.
  - assert (Hh : zlen (header_of e) = 8) by (destruct e; reflexivity).
    cbn [app] in E. rewrite loop_nested_start, <- app_assoc in E. cbn [app] in E.
    pose proof (pstep_frame _ _ _ _ _ Hv) as (_ & Fo & _). specialize (Fo (fun x => x)). cbn [child p_offset] in Fo.
    destruct (IH1 tp m add data (pre ++ (id :: lenb) ++ header_of e) (bs2 ++ post) (mkRw (rw_producers st) (rw_names st) (rw_out st :: rw_stack st) (header_of e)) _ _ ltac:(rewrite Ed; lst)
       ltac:(rewrite !zlen_app, zlen_cons; lia) ltac:(discriminate) E) as (cb1 & Hca1 & E1).
    unfold emit in E1. cbn [rw_producers rw_names rw_stack rw_out] in E1.
    apply loop_nested_end in E1 as (eb & Eeb & E1).
    assert (exists cb, canon items cb /\ rewrite_loop tp m add data (emit (mkRw (rw_producers st) (rw_names st) (rw_stack st) (rw_out st ++ kind e :: eb)) cb) k = Some s') as (cb & Hca & E2).
    { destruct Hx as [Hx|(_ & -> & Hx)].
      - eapply (IH2 tp m add data (pre ++ (id :: lenb) ++ header_of e ++ bs1) post); [rewrite Ed; lst|rewrite !zlen_app, zlen_cons; lia|exact Hstk|exact E1].
      - destruct (holds_nil _ _ _ _ _ _ H2 eq_refl) as (-> & -> & _). exists []. split; [constructor|]. rewrite emit_nil. exact E1. }
    exists ((kind e :: eb) ++ cb). split; [econstructor; eassumption|]. rewrite <- emit_emit. exact E2.
Qed.

(** * Custom sections *)
Lemma section_zero p pl lx c p1 : section_step p pl 0 lx c p1 -> exists rg name d, pl = PCustom rg c name d /\ custom name d c /\ zlen name <= MAX_WASM_STRING_SIZE /\ utf8_valid name = true.
Proof.
  intros (Hst & Hu0 & Has & Hnn & Hcc). remember (0 :: lx ++ c) as bs eqn:Ebs.
  pinv Hst; subst; clear Hst; try discriminate Has; try (exfalso; apply Hnn; destruct (_ =? _); exact I);
    try (match goal with Hh : header_at _ _ _ _ _ |- _ => destruct Hh as (Hi & Hlen & -> & Hm1 & Hm2) end);
    match goal with X : _ :: _ = _ :: _ ++ _ |- _ => first [discriminate X|injection X as Ei Eb|injection X as Eb] end; subst.
  all: try discriminate; try congruence.
  - destruct (uN_split _ _ _ _ _ _ _ Hlen Hu0 Eb) as (-> & _ & <-). do 3 eexists. split; [reflexivity|]. split; [exists nb; auto|auto].
  - exfalso. cbn in Hid. intuition lia.
Qed.
Lemma section_custom p rg b name d id lenb c p1 : section_step p (PCustom rg b name d) id lenb c p1 -> id = 0.
Proof. intros (_ & _ & Has & _). cbn in Has. congruence. Qed.
Lemma custom_fun name d name' d' c : custom name d c -> custom name' d' c -> name = name' /\ d = d'.
Proof.
  intros (nb & Hu & ->) (nb' & Hu' & E). destruct (uN_split _ _ _ _ _ _ _ Hu Hu' E) as (-> & El & E').
  assert (name = name') as <-.
  { apply (f_equal (firstn (List.length name))) in E'. rewrite firstn_app, firstn_all, Nat.sub_diag in E'. cbn in E'. rewrite app_nil_r in E'.
    assert (List.length name = List.length name') as El' by (unfold zlen in El; lia). rewrite El', firstn_app, firstn_all, Nat.sub_diag in E'. cbn in E'. rewrite app_nil_r in E'. exact E'. }
  apply app_inv_head in E'. auto.
Qed.
Lemma encode_custom_shape name d b : encode_custom name d = Some b -> exists c, encode_bytes c = Some b /\ custom name d c.
Proof.
  unfold encode_custom, encoding_size. destruct (encode_u32 (zlen name)) as [nm|] eqn:En; [|discriminate].
  destruct (encode_bytes name) as [nmb|] eqn:Eb; [|discriminate].
  destruct (encode_usize (zlen nm + zlen name + zlen d)) as [l|] eqn:El; [|discriminate]. intros [= <-].
  assert (nmb = nm ++ name) as ->.
  { unfold encode_bytes, encode_usize in Eb. destruct (_ <=? _); [|discriminate]. rewrite En in Eb. congruence. }
  assert (Hu : uN 32 nm (zlen name)).
  { apply encode_bytes_shape in Eb as (lenb & E & Hu). apply app_inv_tail in E. subst lenb. exact Hu. }
  exists (nm ++ name ++ d). split; [|exists nm; auto]. unfold encode_bytes. rewrite !zlen_app, Z.add_assoc, El. now rewrite <- app_assoc.
Qed.

(** What becomes of the data of a custom section; [Some None]: it is left out. *)
Definition data_effect (tp : text_parsers) (m : add_metadata) (add : producers) (name d : list Z) : option (option (list Z)) :=
  if same name (lit "producers") && has_count d then
    match producers_from_bytes d with Some p => option_map Some (producers_data (p_merge p add)) | None => None end
  else if same name (lit "name") then
    match module_names_from_bytes d with
    | Some n => option_map Some (module_names_data (match am_name m with Keep => n | Set_ v => mn_set n v | Clear => mkMN None [] end))
    | None => None end
  else if same name (lit "component-name") then
    match component_names_from_bytes d with
    | Some n => option_map Some (component_names_data (match am_name m with Keep => n | Set_ v => cn_set n v | Clear => mkCN None [] end))
    | None => None end
  else match find_oci name with
       | Some o => match am_oci m o with Keep => option_map Some (oci_reparse tp o d) | Clear => Some None | Set_ _ => Some (Some d) end
       | None => Some (Some d)
       end.
Definition is_producers (name d : list Z) : bool := same name (lit "producers") && has_count d.
Definition is_names (name : list Z) : bool := same name (lit "name") || same name (lit "component-name").

Lemma find_oci_name name o : find_oci name = Some o -> name = oci_name o.
Proof. unfold find_oci. intros H. apply find_some in H as (_ & H). now apply same_eq in H. Qed.
Lemma oci_metadata o : In (oci_name o) metadata_names.
Proof. destruct o; cbn; auto 12. Qed.
Lemma metadata_lit s : existsb (String.eqb s) ["producers"; "name"; "component-name"]%string = true -> In (lit s) metadata_names.
Proof.
  intros H. apply existsb_exists in H as (x & Hx & E). apply String.eqb_eq in E. subst x. unfold metadata_names. apply in_map.
  cbn in Hx |- *. intuition.
Qed.
Lemma metadata_cases name : In name metadata_names -> name = lit "producers" \/ name = lit "name" \/ name = lit "component-name" \/ exists o, name = oci_name o.
Proof.
  cbn. intros [<-|[<-|[<-|[<-|[<-|[<-|[<-|[<-|[<-|[<-|[]]]]]]]]]]]; auto; right; right; right;
    [exists Authors|exists Description|exists Licenses|exists Source|exists Homepage|exists Revision|exists Version]; reflexivity.
Qed.
Lemma metadata_name_ok name : In name metadata_names -> zlen name <= MAX_WASM_STRING_SIZE /\ utf8_valid name = true /\ bytes_ok name.
Proof.
  intros H. cut (Forall (fun name => zlen name <= MAX_WASM_STRING_SIZE /\ utf8_valid name = true /\ bytes_ok name) metadata_names); [rewrite Forall_forall; auto|].
  repeat constructor; vm_compute; congruence.
Qed.

Lemma emit_custom_shape s name d s' : emit_custom s name d = Some s' -> exists c b, encode_bytes c = Some b /\ custom name d c /\ s' = emit s (0 :: b).
Proof.
  unfold emit_custom. destruct (encode_custom name d) as [b|] eqn:E; [|discriminate]. intros [= <-].
  apply encode_custom_shape in E as (c & E1 & E2). eauto.
Qed.
Lemma rewrite_custom_effect tp m add s name d r : rewrite_custom tp m add s name d = Some r ->
  match r with
  | None => data_effect tp m add name d = Some (Some d) /\ is_producers name d = false /\ is_names name = false
  | Some s' =>
      In name metadata_names /\ rw_stack s' = rw_stack s /\
      rw_producers s' = rw_producers s || is_producers name d /\ rw_names s' = rw_names s || is_names name /\
      ((data_effect tp m add name d = Some None /\ rw_out s' = rw_out s) \/
       (exists d' c b, data_effect tp m add name d = Some (Some d') /\ encode_bytes c = Some b /\ custom name d' c /\ rw_out s' = rw_out s ++ 0 :: b))
  end.
Proof.
  unfold rewrite_custom, data_effect, is_producers, is_names. intros H.
  assert (Hemit : forall s0 nm o, In nm metadata_names -> nm = name -> rw_stack s0 = rw_stack s -> rw_out s0 = rw_out s ->
    option_map (@Some rw) (emit_data s0 nm o) = Some r ->
    exists s' d' c b, r = Some s' /\ o = Some d' /\ encode_bytes c = Some b /\ custom name d' c /\ s' = emit s0 (0 :: b)).
  { intros s0 nm o Hin <- E1 E2 E. unfold emit_data in E. destruct o as [d'|]; [|discriminate].
    destruct (emit_custom s0 nm d') as [s'|] eqn:Es; [|discriminate]. injection E as <-.
    apply emit_custom_shape in Es as (c & b & Eb & Hc & ->). exists (emit s0 (0 :: b)), d', c, b. auto. }
  destruct (same name (lit "producers") && has_count d) eqn:E1.
  { apply andb_true_iff in E1 as (E1 & _). apply same_eq in E1. subst name. destruct (producers_from_bytes d) as [p|]; [|discriminate].
    apply Hemit in H as (s' & d' & c & b & -> & -> & Eb & Hc & ->); try reflexivity; [|apply metadata_lit; reflexivity].
    cbn [rw_stack rw_producers rw_names rw_out emit found_producers option_map]. rewrite orb_true_r.
    split; [apply metadata_lit; reflexivity|]. split; [reflexivity|]. split; [reflexivity|]. split; [now rewrite orb_false_r|]. right. exists d', c, b. auto. }
  destruct (same name (lit "name")) eqn:E2.
  { apply same_eq in E2. subst name. destruct (module_names_from_bytes d) as [p|]; [|discriminate]. cbv zeta in H.
    apply Hemit in H as (s' & d' & c & b & -> & Ed & Eb & Hc & ->); try reflexivity; [|apply metadata_lit; reflexivity].
    cbn [rw_stack rw_producers rw_names rw_out emit found_names option_map]. rewrite Ed, orb_true_r, orb_false_r.
    split; [apply metadata_lit; reflexivity|]. repeat (split; [reflexivity|]). right. exists d', c, b. auto. }
  destruct (same name (lit "component-name")) eqn:E3.
  { apply same_eq in E3. subst name. destruct (component_names_from_bytes d) as [p|]; [|discriminate]. cbv zeta in H.
    apply Hemit in H as (s' & d' & c & b & -> & Ed & Eb & Hc & ->); try reflexivity; [|apply metadata_lit; reflexivity].
    cbn [rw_stack rw_producers rw_names rw_out emit found_names option_map]. rewrite Ed, orb_true_r, orb_false_r.
    split; [apply metadata_lit; reflexivity|]. repeat (split; [reflexivity|]). right. exists d', c, b. auto. }
  destruct (find_oci name) as [o|] eqn:Eo; [|injection H as <-; auto].
  destruct (am_oci m o).
  - apply find_oci_name in Eo. subst name. destruct (oci_reparse tp o d) as [d'|] eqn:Er; [|discriminate].
    apply (Hemit s (oci_name o) (Some d')) in H as (s' & d'' & c & b & -> & [= <-] & Eb & Hc & ->); try reflexivity; [|apply oci_metadata].
    cbn. rewrite !orb_false_r. split; [apply oci_metadata|]. repeat (split; [reflexivity|]). right. exists d', c, b. auto.
  - injection H as <-. apply find_oci_name in Eo. subst name. cbn. rewrite !orb_false_r. split; [apply oci_metadata|]. auto 6.
  - injection H as <-. auto.
Qed.
