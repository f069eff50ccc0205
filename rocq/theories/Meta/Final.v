(** The output of the rewriting, read again. *)
From Verif.Base Require Import Prelude Utf8.
From Verif.Reader Require Import Model Spec Mono.
From Verif.Leb Require Import Spec Model Proofs ReaderProofs Top.
From Verif.Encoder Require Import Model.
From Verif.Parser Require Import Model Proofs Spec Stream Shape Chunks Complete Tiling Module Forward Encoded.
From Verif.Meta Require Import Model Spec Doc DocWrite DocCanon RewriteProofs EditProofs.
From Coq Require Import Lia.

(** * What a reader finds is one thing *)
Lemma reported_fun data a t : reported data a t -> forall a' t' o r o' r', reported data a' t' -> t ++ PEnd o :: r = t' ++ PEnd o' :: r' ->
  a = a' /\ t = t' /\ o = o' /\ r = r'.
Proof.
  induction 1 as [|pl id s e items tr Has Hn H IH|rg b items tr H IH|pl id q rg num e rg' sub tr1 off items tr2 Hk H1 IH1 H2 IH2]; intros a' t' o r o' r' H' E.
  - inversion H' as [|pl' id' s' e' items' tr' Has' Hn' H0|rg0 b' items' tr' H0|pl' id' q' rg0 num' e' rg2 sub' tr1' off' items' tr2' Hk' H1' H2']; subst; cbn [app] in E.
    + injection E as -> ->. auto.
    + injection E as <- _. discriminate.
    + discriminate.
    + injection E as E _. destruct Hk' as [(_ & ->)|(_ & ->)]; discriminate.
  - inversion H' as [|pl' id' s' e' items' tr' Has' Hn' H0|rg0 b' items' tr' H0|pl' id' q' rg0 num' e' rg2 sub' tr1' off' items' tr2' Hk' H1' H2']; subst; cbn [app] in E.
    + injection E as -> _. discriminate.
    + injection E as <- E. rewrite Has in Has'. injection Has' as <- <- <-. destruct (IH _ _ _ _ _ _ H0 E) as (-> & -> & -> & ->). auto.
    + injection E as -> _. discriminate.
    + injection E as -> _. exfalso. destruct (Hn q' rg0) as (X & Y). destruct Hk' as [(_ & ->)|(_ & ->)]; congruence.
  - inversion H' as [|pl' id' s' e' items' tr' Has' Hn' H0|rg0 b' items' tr' H0|pl' id' q' rg0 num' e' rg2 sub' tr1' off' items' tr2' Hk' H1' H2']; subst; cbn [app] in E.
    + discriminate.
    + injection E as <- _. discriminate.
    + injection E as <- <- E. destruct (IH _ _ _ _ _ _ H0 E) as (-> & -> & -> & ->). auto.
    + injection E as E _. destruct Hk' as [(_ & ->)|(_ & ->)]; discriminate.
  - inversion H' as [|pl' id' s' e' items' tr' Has' Hn' H0|rg0 b' items' tr' H0|pl' id' q' rg0 num' e' rg2 sub' tr1' off' items' tr2' Hk' H1' H2']; subst; cbn [app] in E.
    + injection E as E _. destruct Hk as [(_ & ->)|(_ & ->)]; discriminate.
    + injection E as <- _. exfalso. destruct (Hn' q rg) as (X & Y). destruct Hk as [(_ & ->)|(_ & ->)]; congruence.
    + injection E as E _. destruct Hk as [(_ & ->)|(_ & ->)]; discriminate.
    + rewrite <- !app_assoc in E. cbn [app] in E. injection E as <- <- <- <- E. destruct (IH1 _ _ _ _ _ _ H1' E) as (-> & -> & -> & E2).
      destruct (IH2 _ _ _ _ _ _ H2' E2) as (-> & -> & -> & ->). assert (id = id') as ->; [|auto].
      destruct Hk as [(-> & ->)|(-> & ->)], Hk' as [(-> & E')|(-> & E')]; congruence.
Qed.
Theorem document_unique data e items e' items' : is_document data e items -> is_document data e' items' -> e = e' /\ items = items'.
Proof.
  intros (num & rg & tr & off & Hy & Hr) (num' & rg' & tr' & off' & Hy' & Hr'). destruct (yields_fun _ _ _ Hy _ _ Hy') as (E & _).
  injection E as -> -> -> E. destruct (reported_fun _ _ _ Hr _ _ off [] off' [] Hr' (eq_sym E)) as (-> & _). auto.
Qed.

(** * The header *)
Lemma top_header num e rg p1 : pstep true (new_parser 0) (PVersion num e rg) (header_of e) p1 ->
  p_state p1 = SSectionStart /\ p_offset p1 = 8 /\ p_max_offset p1 = None /\ p_enc p1 = e /\ sim p1 p1.
Proof.
  intros H. pose proof (pstep_frame _ _ _ _ _ H) as (Fm & Fo & _). specialize (Fo (fun x => x)). cbn in Fm.
  assert (Hh : zlen (header_of e) = 8) by (destruct e; reflexivity). rewrite Hh in Fo. cbn [p_offset new_parser] in Fo.
  assert (p_state p1 = SSectionStart /\ p_enc p1 = e /\ snd (p_order p1) <= 8) as (E1 & E2 & E3).
  { destruct (header_step _ _ _ _ H eq_refl) as (? & ? & ? & _ & _ & Es). split; [exact Es|]. clear - H.
    inversion H; subst; try (match goal with X : _ = PVersion _ _ _ |- _ => revert X; destruct (_ =? 1); discriminate end); cbn; split; reflexivity || lia. }
  split; [exact E1|]. split; [lia|]. split; [exact Fm|]. split; [exact E2|]. assert (Ha : exists q, at_sections p1 q) by (exists p1; left; auto).
  constructor; auto. lia.
Qed.
Theorem document_found data tr : bytes_ok data -> zlen data <= U64MAX -> yields (parse_all_of (new_parser 0) data) tr None ->
  exists num e rg tr1 items bs p1 p2 p3, tr = PVersion num e rg :: tr1 ++ [PEnd (p_offset p2)] /\ data = header_of e ++ bs /\
    pstep true (new_parser 0) (PVersion num e rg) (header_of e) p1 /\ holds false p1 items tr1 bs p2 /\ pstep true p2 (PEnd (p_offset p2)) [] p3.
Proof.
  intros Hb Hl Hy. pose proof (inv_new 0 data ltac:(lia) ltac:(lia) Hb) as Hi. unfold parse_all_of in Hy.
  destruct (yields_step _ _ _ _ Hy Hi) as (pl & hb & rest & p1 & -> & Hst & _ & _ & Hc).
  destruct (header_step _ _ _ _ Hst eq_refl) as (num & e & rg & -> & -> & Es). cbn [after_payload] in Hc. destruct Hc as (tr' & -> & Hy' & Hi').
  destruct (top_header _ _ _ _ Hst) as (_ & Ho & Hm & He & _).
  destruct (document_read _ _ _ _ _ (le_n _) Hy' Hi') as (items & tr1 & bs & p2 & p3 & tr2 & rest' & -> & -> & Hh & He2 & _ & _ & -> & ->).
  { cbn. exact Hm. }
  { exists p1. left. auto. }
  rewrite app_nil_r. exists num, e, rg, tr1, items, bs, p1, p2, p3. auto 6.
Qed.
Lemma held_document num e rg p1 x items tr1 bs p2 data : data = header_of e ++ bs -> yields (parse_all_of (new_parser 0) data) (PVersion num e rg :: tr1 ++ [PEnd (p_offset p2)]) None ->
  pstep true (new_parser 0) (PVersion num e rg) (header_of e) p1 -> holds x p1 items tr1 bs p2 -> is_document data e items.
Proof.
  intros -> Hy Hst Hh. exists num, rg, tr1, (p_offset p2). split; [exact Hy|]. destruct (top_header _ _ _ _ Hst) as (_ & Ho & _).
  apply (holds_reported _ _ _ _ _ _ Hh _ (header_of e) []); [rewrite app_nil_r; reflexivity|]. rewrite Ho. destruct e; reflexivity.
Qed.
(** Everything the parser reads to its end is a document. *)
Theorem document_exists data tr : bytes_ok data -> zlen data <= U64MAX -> yields (parse_all_of (new_parser 0) data) tr None -> exists e items, is_document data e items.
Proof.
  intros Hb Hl Hy. destruct (document_found _ _ Hb Hl Hy) as (num & e & rg & tr1 & items & bs & p1 & p2 & p3 & -> & Ed & Hst & Hh & _).
  exists e, items. eapply held_document; eauto.
Qed.
(** What is held exactly is read. *)
Lemma held_yields num e rg p1 items tr1 bs p2 p3 : bytes_ok (header_of e ++ bs) -> zlen (header_of e ++ bs) <= U64MAX ->
  pstep true (new_parser 0) (PVersion num e rg) (header_of e) p1 -> holds true p1 items tr1 bs p2 -> pstep true p2 (PEnd (p_offset p2)) [] p3 ->
  yields (parse_all_of (new_parser 0) (header_of e ++ bs)) (PVersion num e rg :: tr1 ++ [PEnd (p_offset p2)]) None.
Proof.
  intros Hb Hl Hst Hh He. assert (Hi : inv (new_parser 0) [] (header_of e ++ bs)) by (apply inv_new; [lia|exact Hl|exact Hb]). unfold parse_all_of.
  assert (Hh8 : zlen (header_of e) = 8) by (destruct e; reflexivity).
  destruct (step_yields _ _ _ _ _ _ p1 [] Hi Hst (fun x => x)) as (Hi1 & Hy1); [rewrite Hh8; cbn; unfold U64MAX; lia|reflexivity|].
  apply Hy1. rewrite <- (app_nil_r bs) in Hi1 |- *. destruct (document_yields _ _ _ _ _ _ Hh eq_refl _ _ Hi1) as (Hi2 & Hy2). apply Hy2.
  eapply (yields_last _ _ (mkAll p3 [] [] true)); [|reflexivity]. unfold all_next. cbn [a_done a_cur a_data a_stack].
  rewrite (parse_complete_end _ _ _ (inv_fits _ _ _ Hi2) He). reflexivity.
Qed.

(** * Custom sections at the end *)
Lemma customs_app l a l' a' : customs l a -> customs l' a' -> customs (l ++ l') (a ++ a').
Proof. induction 1; cbn; [auto|]. intros. constructor; auto. Qed.
Lemma canon_app a ab : canon a ab -> forall b bb, canon b bb -> canon (a ++ b) (ab ++ bb).
Proof. induction 1; intros b' bb Hb; cbn [app]; [exact Hb| |]; rewrite <- app_assoc; [apply ca_sec|eapply ca_sub]; eauto. Qed.
Lemma canon_app_inv a : forall b bs, canon (a ++ b) bs -> exists ab bb, bs = ab ++ bb /\ canon a ab /\ canon b bb.
Proof.
  induction a as [|i a IH]; intros b bs H; [exists [], bs; repeat split; auto; constructor|]. cbn [app] in H.
  inversion H as [|id c bb items' bs' E H'|id e sub bs1 bb items' bs' H1 E H']; subst; destruct (IH _ _ H') as (ab & bb' & -> & Ha & Hb).
  - exists ((id :: bb) ++ ab), bb'. split; [now rewrite app_assoc|]. split; [constructor; auto|exact Hb].
  - exists ((kind e :: bb) ++ ab), bb'. split; [now rewrite app_assoc|]. split; [econstructor; eauto|exact Hb].
Qed.
Lemma customs_held l items : customs l items -> forall p p2 cb, sim p p2 -> canon items cb -> p_offset p2 + zlen cb <= max_off p2 -> max_off p2 <= U64MAX ->
  exists tr p3, holds true p2 items tr cb p3 /\ sim p p3.
Proof.
  induction 1 as [|name d c l items Hin Hc H IH]; intros p p2 cb Hs Hca Hfit Hmax.
  - inversion Hca; subst. exists [], p2. split; [constructor|exact Hs].
  - inversion Hca as [|id' c' b items' bs' Eb Hca'|]; subst. destruct (encode_bytes_inv _ _ Eb) as (l2 & -> & Hu2 & _).
    rewrite zlen_app, zlen_cons, zlen_app in Hfit. pose proof (zlen_nonneg bs') as Zb.
    destruct (metadata_name_ok _ Hin) as (Hn1 & Hn2 & _).
    destruct (custom_step p2 name d c l2 (sm_at2 _ _ Hs) Hn1 Hn2 Hc Hu2 ltac:(lia) Hmax) as (pl & p3 & (S1 & S2 & S3 & S4 & S5) & Hsim).
    pose proof (pstep_frame _ _ _ _ _ S1) as (Fm & Fo & _). specialize (Fo S4). rewrite zlen_cons, zlen_app in Fo.
    assert (Hm3 : max_off p3 = max_off p2) by (unfold max_off; now rewrite Fm).
    destruct (IH p p3 bs' (Hsim _ Hs) Hca') as (tr & p4 & Hh & Hs4); [lia|lia|].
    exists (pl :: tr), p4. split; [|exact Hs4]. eapply ho_sec; eauto. rewrite zlen_cons, zlen_app. lia.
Qed.

(** * After the loop *)
Definition opt_list {A} (o : option A) : list A := match o with Some a => [a] | None => [] end.
Definition added_names (m : add_metadata) (e : encoding) (had : bool) : option (list Z * option (list Z)) :=
  if had then None
  else match am_name m with
       | Set_ n => Some (match e with EComponent => (lit "component-name", component_names_data (mkCN (Some n) []))
                                    | EModule => (lit "name", module_names_data (mkMN (Some n) [])) end)
       | _ => None
       end.
Definition added_producers (add : producers) (had : bool) : option (list Z * option (list Z)) :=
  if had then None else match add with [] => None | _ => Some (lit "producers", producers_data (p_merge [] add)) end.
Definition added_oci (m : add_metadata) : list (list Z * list Z) :=
  List.concat (map (fun o => match am_oci m o with Set_ d => [(oci_name o, d)] | _ => [] end) all_oci).

Lemma starts_app e l : starts_with component_header (header_of e ++ l) = match e with EComponent => true | EModule => false end.
Proof. destruct e; reflexivity. Qed.
Lemma emit_data_added s name o s' : In name metadata_names -> emit_data s name o = Some s' ->
  exists d items cb, o = Some d /\ customs [(name, d)] items /\ canon items cb /\ s' = emit s cb.
Proof.
  intros Hin. unfold emit_data. destruct o as [d|]; [|discriminate]. intros E. apply emit_custom_shape in E as (c & b & Eb & Hc & ->).
  exists d, [Sec 0 c], ((0 :: b) ++ []). split; [reflexivity|]. split; [apply cu_cons; [exact Hin|exact Hc|constructor]|]. split; [apply ca_sec; [exact Eb|constructor]|]. now rewrite app_nil_r.
Qed.
Lemma emit_nil s : s = emit s [].
Proof. destruct s. unfold emit. cbn. now rewrite app_nil_r. Qed.
Lemma add_names_added m s s' e l : rw_out s = header_of e ++ l -> add_names m s = Some s' ->
  exists ds items cb, map (fun x => (fst x, Some (snd x))) ds = opt_list (added_names m e (rw_names s)) /\ customs ds items /\ canon items cb /\ s' = emit s cb.
Proof.
  intros Eo. unfold add_names, added_names. rewrite Eo, starts_app.
  destruct (rw_names s); [intros [= <-]; exists [], [], []; repeat split; try constructor; apply emit_nil|].
  destruct (am_name m) as [| |n]; try (intros [= <-]; exists [], [], []; repeat split; try constructor; apply emit_nil).
  destruct e; intros E; apply emit_data_added in E as (d & items & cb & -> & Hc & Hca & ->); try (apply metadata_lit; reflexivity);
    (eexists [(_, _)], items, cb; split; [reflexivity|auto]).
Qed.
Lemma add_producers_added add s s' : add_producers add s = Some s' ->
  exists ds items cb, map (fun x => (fst x, Some (snd x))) ds = opt_list (added_producers add (rw_producers s)) /\ customs ds items /\ canon items cb /\ s' = emit s cb.
Proof.
  unfold add_producers, added_producers.
  destruct (rw_producers s); [intros [= <-]; exists [], [], []; repeat split; try constructor; apply emit_nil|].
  destruct add as [|f add]; [intros [= <-]; exists [], [], []; repeat split; try constructor; apply emit_nil|].
  intros E; apply emit_data_added in E as (d & items & cb & Ed & Hc & Hca & ->); [|apply metadata_lit; reflexivity].
  exists [(lit "producers", d)], items, cb. rewrite Ed. split; [reflexivity|auto].
Qed.
Lemma add_oci_added m l : forall s s', add_oci m l s = Some s' ->
  exists items cb, customs (List.concat (map (fun o => match am_oci m o with Set_ d => [(oci_name o, d)] | _ => [] end) l)) items /\ canon items cb /\ s' = emit s cb.
Proof.
  induction l as [|o l IH]; intros s s' E; cbn [add_oci map List.concat] in *.
  - injection E as <-. exists [], []. repeat split; try constructor. apply emit_nil.
  - destruct (am_oci m o) as [| |d]; [apply IH; exact E|apply IH; exact E|].
    destruct (emit_custom s (oci_name o) d) as [s1|] eqn:E1; [|discriminate]. apply emit_custom_shape in E1 as (c & b & Eb & Hc & ->).
    apply IH in E as (items & cb & Hcu & Hca & ->). exists (Sec 0 c :: items), ((0 :: b) ++ cb). split; [cbn; constructor; auto; apply oci_metadata|].
    split; [constructor; auto|]. now rewrite emit_emit.
Qed.
Definition added (m : add_metadata) (add : producers) (e : encoding) (items : list item) (l : list (list Z * list Z)) : Prop :=
  exists b1 b2 ns ps, (b1 = true <-> has_producers items) /\ (b2 = true <-> has_names items) /\ l = ns ++ ps ++ added_oci m /\
    map (fun x => (fst x, Some (snd x))) ns = opt_list (added_names m e b2) /\
    map (fun x => (fst x, Some (snd x))) ps = opt_list (added_producers add b1).

(** * The whole *)
Theorem rewrite_document tp m add data tr out e items : bytes_ok data -> zlen data <= U64MAX -> yields (parse_all_of (new_parser 0) data) tr None ->
  rewrite_wasm tp m add data tr = Some out -> bytes_ok out -> zlen out <= U64MAX -> is_document data e items -> Forall well_kinded items ->
  exists items' l extra tr' cb, is_document out e (items' ++ extra) /\ yields (parse_all_of (new_parser 0) out) tr' None /\
    edited (Rd tp m add) items items' /\ added m add e items l /\ customs l extra /\ canon (items' ++ extra) cb /\ out = header_of e ++ cb.
Proof.
  intros Hb Hl Hy Er Hb2 Hl2 Hdoc Hwk.
  destruct (document_found _ _ Hb Hl Hy) as (num & e0 & rg & tr1 & items0 & bs & p1 & p2 & p3 & -> & -> & Hst & Hh & He).
  destruct (document_unique _ _ _ _ _ Hdoc (held_document _ _ _ _ _ _ _ _ _ _ eq_refl Hy Hst Hh)) as (<- & <-).
  destruct (top_header _ _ _ _ Hst) as (Es & Ho & Hm & Hen & Hsim).
  unfold rewrite_wasm in Er. cbn [rewrite_loop rewrite_payload] in Er. unfold emit in Er. cbn [rw_producers rw_names rw_stack rw_out app] in Er.
  set (s0 := mkRw false false [] (header_of e)) in *.
  destruct (rewrite_loop tp m add _ s0 (tr1 ++ [PEnd (p_offset p2)])) as [s|] eqn:El; [|discriminate].
  assert (H8 : zlen (header_of e) = 8) by (destruct e; reflexivity).
  destruct (loop_top tp m add _ _ _ _ _ _ Hh _ (header_of e) [] s0 _ _ ltac:(rewrite app_nil_r; reflexivity) ltac:(rewrite H8; exact Ho) eq_refl El)
    as (items' & cb & s1 & Hed & Hca & Hs1 & Ho1 & (Hf1 & Hf2) & El').
  cbn [rewrite_loop rewrite_payload] in El'. rewrite Hs1 in El'. injection El' as <-. cbn [rw_out s0 rw_producers rw_names] in Ho1, Hf1, Hf2.
  destruct (add_names m s1) as [s2|] eqn:E1; [|discriminate]. destruct (add_names_added _ _ _ _ _ Ho1 E1) as (ns & i1 & c1 & N1 & N2 & N3 & ->).
  destruct (add_producers add _) as [s3|] eqn:E2; [|discriminate]. destruct (add_producers_added _ _ _ E2) as (ps & i2 & c2 & P1 & P2 & P3 & ->).
  destruct (add_oci m all_oci _) as [s4|] eqn:E3; [|discriminate]. destruct (add_oci_added _ _ _ _ E3) as (i3 & c3 & O2 & O3 & ->).
  cbn [option_map rw_out emit rw_producers rw_names] in *. injection Er as <-. rewrite Ho1 in Hb2, Hl2 |- *.
  assert (Hcx : customs (ns ++ ps ++ added_oci m) (i1 ++ i2 ++ i3)) by (repeat apply customs_app; auto).
  assert (Hce : canon (i1 ++ i2 ++ i3) (c1 ++ c2 ++ c3)) by (repeat apply canon_app; auto).
  replace ((((header_of e ++ cb) ++ c1) ++ c2) ++ c3) with (header_of e ++ cb ++ c1 ++ c2 ++ c3) in Hb2, Hl2 |- * by (rewrite <- !app_assoc; reflexivity).
  assert (Hmx : max_off p1 = U64MAX) by (unfold max_off; now rewrite Hm).
  rewrite !zlen_app in Hl2. pose proof (zlen_nonneg cb). pose proof (zlen_nonneg (c1 ++ c2 ++ c3)) as Zc. rewrite !zlen_app in Zc.
  destruct (edited_holds _ _ _ _ _ _ Hh Hwk _ _ p1 cb Hed Hsim Hca ltac:(lia) ltac:(lia)) as (tr2 & q & Hq & Hsq).
  destruct (holds_offset _ _ _ _ _ _ Hq) as (_ & Hqo). specialize (Hqo eq_refl). pose proof (holds_frame _ _ _ _ _ _ Hq) as Hqm.
  assert (Hmq : max_off q = U64MAX) by (unfold max_off; rewrite Hqm, Hm; reflexivity).
  destruct (customs_held _ _ Hcx _ q _ Hsq Hce) as (tr3 & q2 & Hq2 & Hsq2); [rewrite !zlen_app; lia|lia|].
  pose proof (holds_app _ _ _ _ _ _ Hq eq_refl _ _ _ _ Hq2) as Hall. destruct (sim_end _ _ _ _ He Hsq2) as (q3 & Hend).
  pose proof (held_yields _ _ _ _ _ _ _ _ _ Hb2 ltac:(rewrite !zlen_app; lia) Hst Hall Hend) as Hyo.
  exists items', (ns ++ ps ++ added_oci m), (i1 ++ i2 ++ i3), (PVersion num e rg :: (tr2 ++ tr3) ++ [PEnd (p_offset q2)]), (cb ++ c1 ++ c2 ++ c3).
  split; [eapply held_document; eauto|]. split; [exact Hyo|]. split; [exact Hed|].
  split; [|split; [exact Hcx|split; [apply canon_app; assumption|reflexivity]]]. exists (rw_producers s1), (rw_names s1), ns, ps.
  split; [rewrite Hf1; split; [intros [X|X]; [discriminate|exact X]|auto]|].
  split; [rewrite Hf2; split; [intros [X|X]; [discriminate|exact X]|auto]|]. auto.
Qed.
