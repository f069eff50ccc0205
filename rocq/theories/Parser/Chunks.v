(** Chunk invariance of the incremental parser. *)
From Verif.Base Require Import Prelude Utf8.
From Verif.Reader Require Import Model Spec Mono.
From Verif.Leb Require Import Spec Proofs.
From Verif.Parser Require Import Model Proofs Spec Stream Shape.

Lemma zlen_skipn {A} n (l : list A) : 0 <= n <= zlen l -> zlen (skipn (Z.to_nat n) l) = zlen l - n.
Proof. unfold zlen. intros H. rewrite skipn_length. lia. Qed.

Lemma new_reader_extend ft d x o : new_reader ft (d ++ x) o = extend (new_reader ft d o) x.
Proof. reflexivity. Qed.

(** Extending the buffer either changes nothing (the limit is reached) or extends
    what the parser sees. *)
Lemma eff_app p d x e : p_offset p <= max_off p ->
  (snd (eff p d false) = true /\ eff p (d ++ x) e = eff p d false) \/
  (eff p d false = (d, false) /\ exists x' e2, eff p (d ++ x) e = (d ++ x', e2)).
Proof.
  intros Hle. unfold eff. rewrite zlen_app. pose proof (zlen_nonneg x).
  destruct (Z.ltb_spec (max_off p - p_offset p) (zlen d)) as [H1|H1].
  - left. split; [reflexivity|].
    destruct (Z.ltb_spec (max_off p - p_offset p) (zlen d + zlen x)); [|lia].
    rewrite firstn_app_le by (unfold zlen in *; lia). reflexivity.
  - right. split; [reflexivity|].
    destruct (Z.ltb_spec (max_off p - p_offset p) (zlen d + zlen x)).
    + rewrite firstn_app. rewrite firstn_all2 by (unfold zlen in *; lia). eauto.
    + eauto.
Qed.

Lemma fits_app p d x : fits p (d ++ x) -> fits p d.
Proof. unfold fits. rewrite zlen_app. pose proof (zlen_nonneg x). intros [H1 H2]. split; [exact H1|]. intros E. specialize (H2 E). lia. Qed.

Lemma parse_ok_ext p d x e n pl p' : fits p (d ++ x) ->
  parse p d false = (Ok (Parsed n pl), p') -> parse p (d ++ x) e = (Ok (Parsed n pl), p').
Proof.
  intros Hf. rewrite (parse_eff p d false (fits_app _ _ _ Hf)), (parse_eff p (d ++ x) e Hf).
  destruct (eff_app p d x e (proj1 Hf)) as [[Hs E]|[E (x' & e2 & E2)]].
  - rewrite E. auto.
  - rewrite E, E2. cbn [fst snd]. unfold finish.
    destruct (parse_reader false p _) as [[[pl1 r']|er] p1] eqn:Ep.
    + apply pr_ok in Ep as [_ Hx]. rewrite new_reader_extend, Hx. intros H. injection H as <- <- <-. reflexivity.
    + destruct (e_hint er); discriminate.
Qed.

Lemma parse_err_ext p d x er p' : fits p (d ++ x) ->
  parse p d false = (Err er, p') ->
  exists er' p'', parse p (d ++ x) true = (Err er', p'') /\
    (er' = er \/ e_msg er' = msg_magic /\ tight p (p_offset p)).
Proof.
  intros Hf. rewrite (parse_eff p d false (fits_app _ _ _ Hf)), (parse_eff p (d ++ x) true Hf).
  destruct (eff_app p d x true (proj1 Hf)) as [[Hs E]|[E (x' & e2 & E2)]].
  - rewrite E. intros ->. eauto.
  - assert (e2 = true) as ->.
    { unfold eff in E2. destruct (_ <? _); injection E2 as _ <-; reflexivity. }
    rewrite E, E2. cbn [fst snd]. unfold finish.
    destruct (parse_reader false p _) as [[[pl1 r']|er1] p1] eqn:Ep; [discriminate|].
    destruct (e_hint er1) eqn:Eh; [discriminate|]. intros H. injection H as <- <-.
    destruct (pr_err _ _ _ _ Ep Eh x' true) as (er' & p'' & Hx & Hor).
    rewrite new_reader_extend, Hx. do 2 eexists. split; [reflexivity|].
    unfold original_position, new_reader in Hor. cbn [r_pos r_off] in Hor.
    rewrite ?Z.add_0_r, ?Z.add_0_l in Hor. exact Hor.
Qed.

Lemma parse_more_inv p d e h p' : fits p d -> parse p d e = (Ok (NeedMoreData h), p') ->
  e = false /\ eff p d false = (d, false) /\
  exists er, parse_reader false p (new_reader (p_feat p) d (p_offset p)) = (Err er, p') /\ is_eof er.
Proof.
  intros Hf. rewrite (parse_eff p d e Hf). unfold eff, finish. destruct (_ <? _); cbn [fst snd].
  - destruct (parse_reader true p _) as [[[pl1 r']|er1] p1]; discriminate.
  - destruct (parse_reader e p _) as [[[pl1 r']|er1] p1] eqn:Ep; [discriminate|].
    destruct e; [discriminate|]. destruct (e_hint er1) eqn:Eh; [|discriminate].
    intros H. injection H as _ <-. repeat split; auto. exists er1. split; [auto|exists z; auto].
Qed.

Lemma parse_more_state p d e h p' : fits p d -> parse p d e = (Ok (NeedMoreData h), p') ->
  p_enc p' = p_enc p /\ (p_state p = SHeader -> p_state p' = SHeader).
Proof.
  intros Hf H. apply parse_more_inv in H as (_ & _ & er & H & He); [|exact Hf].
  unfold parse_reader in H. destruct (p_state p) as [| |n l] eqn:Es.
  - pose proof (quiet_parse_header _ _ _ _ H He). subst p'. auto.
  - pose proof (pss_state _ _ _ _ H He) as F. unfold frame in F. split; congruence.
  - split; [|discriminate]. destruct (n =? 0).
    + destruct (l =? 0).
      * pose proof (pss_state _ _ _ _ H He) as F. unfold frame in F. cbn [set_state p_enc] in F. congruence.
      * injection H as _ <-. reflexivity.
    + pose proof (quiet_parse_body _ _ _ _ _ _ H He). congruence.
Qed.

Lemma parse_more_frame p d e h p' : fits p d -> parse p d e = (Ok (NeedMoreData h), p') ->
  p_offset p' = p_offset p /\ p_max_offset p' = p_max_offset p /\ p_feat p' = p_feat p /\
  (counts_ok (p_counts p) -> counts_ok (p_counts p')).
Proof.
  intros Hf H. apply parse_more_inv in H as (_ & _ & er & H & He); [|exact Hf].
  apply pr_frame in H as (H1 & H2 & H3 & H4 & H5 & H6 & H7); [|exact He].
  repeat split; auto; unfold counts_ok; rewrite ?H4, ?H5, ?H6, ?H7; apply H.
Qed.

Lemma eff_frame p p' d e : p_offset p' = p_offset p -> p_max_offset p' = p_max_offset p ->
  eff p' d e = eff p d e.
Proof. unfold eff, max_off. intros -> ->. reflexivity. Qed.
Lemma fits_frame p p' d : p_offset p' = p_offset p -> p_max_offset p' = p_max_offset p ->
  fits p d -> fits p' d.
Proof. unfold fits, max_off. intros -> ->. auto. Qed.

Lemma parse_more_ext p d e h p' x e2 : fits p (d ++ x) ->
  parse p d e = (Ok (NeedMoreData h), p') -> starts_seen p' = starts_seen p ->
  parse p' (d ++ x) e2 = parse p (d ++ x) e2.
Proof.
  intros Hf H Hs. pose proof (fits_app _ _ _ Hf) as Hfd.
  destruct (parse_more_frame _ _ _ _ _ Hfd H) as (F1 & F2 & F3 & _).
  apply parse_more_inv in H as (-> & E & er & H & He); [|exact Hfd].
  rewrite (parse_eff p (d ++ x) e2 Hf), (parse_eff p' (d ++ x) e2 (fits_frame _ _ _ F1 F2 Hf)).
  rewrite (eff_frame _ _ _ _ F1 F2), F1, F3.
  destruct (eff_app p d x e2 (proj1 Hf)) as [[Hc _]|[_ (x' & e3 & E2)]].
  { rewrite E in Hc. discriminate. }
  rewrite E2. cbn [fst snd]. rewrite !new_reader_extend, (pr_retry _ _ _ _ H He Hs). reflexivity.
Qed.

Lemma parse_more_cut p d e h p' x e2 : fits p (d ++ x) ->
  parse p d e = (Ok (NeedMoreData h), p') -> starts_seen p' <> starts_seen p ->
  (exists er', parse p' (d ++ x) e2 = (Err er', p') /\ e_msg er' = msg_start) /\
  match fst (parse p (d ++ x) true) with
  | Ok (Parsed _ pl) => is_component_start pl | Ok (NeedMoreData _) => False | Err _ => True end.
Proof.
  intros Hf H Hs. pose proof (fits_app _ _ _ Hf) as Hfd.
  destruct (parse_more_frame _ _ _ _ _ Hfd H) as (F1 & F2 & F3 & _).
  apply parse_more_inv in H as (-> & E & er & H & He); [|exact Hfd]. split.
  - rewrite (parse_eff p' (d ++ x) e2 (fits_frame _ _ _ F1 F2 Hf)).
    rewrite (eff_frame _ _ _ _ F1 F2), F1, F3.
    destruct (eff_app p d x e2 (proj1 Hf)) as [[Hc _]|[_ (x' & e3 & E2)]].
    { rewrite E in Hc. discriminate. }
    rewrite E2. cbn [fst snd]. rewrite !new_reader_extend.
    destruct (pr_start_cut _ _ _ _ H He Hs x' e3) as [(er' & -> & Hm & Hh) _].
    unfold finish. rewrite Hh. exists er'. destruct e3; auto.
  - rewrite (parse_eff p (d ++ x) true Hf).
    destruct (eff_app p d x true (proj1 Hf)) as [[Hc _]|[_ (x' & e3 & E2)]].
    { rewrite E in Hc. discriminate. }
    assert (e3 = true) as ->.
    { unfold eff in E2. destruct (_ <? _); injection E2 as _ <-; reflexivity. }
    rewrite E2. cbn [fst snd]. rewrite !new_reader_extend.
    destruct (pr_start_cut _ _ _ _ H He Hs x' true) as [_ Hc]. unfold finish.
    destruct (parse_reader true p _) as [[[pl1 r']|er1] p1]; cbn in *; auto.
Qed.

Lemma parse_more_enc p d e h p' : fits p d ->
  parse p d e = (Ok (NeedMoreData h), p') -> p_enc p = EModule -> starts_seen p' = starts_seen p.
Proof.
  intros Hf H Hm. apply parse_more_inv in H as (-> & E & er & H & He); [|exact Hf].
  destruct (bool_dec (starts_seen p') (starts_seen p)) as [|Hs]; [assumption|].
  pose proof (pr_start_enc _ _ _ _ H He Hs). congruence.
Qed.

(** Nested parsers fit inside each other. *)
Fixpoint chain (cur : parser) (st : list parser) : Prop :=
  p_offset cur <= max_off cur <= U64MAX /\ counts_ok (p_counts cur) /\
  match st with
  | [] => True
  | q :: st' => p_max_offset cur = Some (p_offset q) /\ chain q st'
  end.

Definition inv (cur : parser) (st : list parser) (data : list Z) : Prop :=
  p_offset cur + zlen data <= U64MAX /\ bytes_ok data /\ chain cur st.

Lemma chain_head cur st : chain cur st -> p_offset cur <= max_off cur <= U64MAX /\ counts_ok (p_counts cur).
Proof. destruct st; cbn; tauto. Qed.

Lemma inv_fits cur st data : inv cur st data -> fits cur data.
Proof. intros (H1 & _ & H2). apply chain_head in H2 as [H2 _]. split; [lia|]. intros _. exact H1. Qed.

Lemma chain_frame p p' st : p_offset p' = p_offset p -> p_max_offset p' = p_max_offset p ->
  (counts_ok (p_counts p) -> counts_ok (p_counts p')) -> chain p st -> chain p' st.
Proof. intros E1 E2 Hc. destruct st; cbn; unfold max_off; rewrite E1, E2; intuition. Qed.

(** What a step does to offset, limit and counts. *)
Definition nested (pl : payload) : Prop :=
  match pl with PModule _ _ | PComponent _ _ => True | _ => False end.
Definition is_end (pl : payload) : Prop := match pl with PEnd _ => True | _ => False end.

Lemma at_sections_facts p q : at_sections p q ->
  p_counts q = p_counts p /\ p_order q = p_order p /\ p_enc q = p_enc p /\
  p_offset q = p_offset p /\ p_max_offset q = p_max_offset p /\ p_feat q = p_feat p /\
  p_state q = SSectionStart.
Proof. intros [[E ->]|[_ ->]]; cbn; auto 10. Qed.

Lemma pstep_frame e p pl bs p' : pstep e p pl bs p' ->
  p_max_offset p' = p_max_offset p /\
  (~ nested pl -> p_offset p' = p_offset p + zlen bs) /\
  (counts_ok (p_counts p) -> counts_ok (p_counts p')).
Proof.
  intros H. inversion H; subst; clear H;
  try match goal with Ha : at_sections p _ |- _ => apply at_sections_facts in Ha as (Qc & Qo & Qe & Qf & Qm & Qft & Qs) end;
  unfold moved; cbn [set_offset set_state set_enc set_order set_counts p_max_offset p_offset p_counts p_order p_enc p_feat];
  (split; [congruence|]; split; [try (intros _; rewrite ?Qf; reflexivity)|]); try rewrite Qc; auto;
  try (intros Hc; apply counts_ok_bump; [exact Hc|];
       match goal with Hu : uN 32 _ ?c |- 0 <= ?c => apply uN_range in Hu; lia end).
  - intros Hn. exfalso. apply Hn. destruct (id =? 1); exact I.
Qed.

Lemma pstep_nested e p pl bs p' : pstep e p pl bs p' -> nested pl ->
  exists s en, (pl = PModule (child p s en) (s, en) \/ pl = PComponent (child p s en) (s, en)) /\
    s = p_offset p + zlen bs /\ s <= en <= max_off p /\ en <= U64MAX /\ p_offset p' = en.
Proof.
  intros H Hn. inversion H; subst; clear H; try (exfalso; exact Hn).
  destruct H3 as (Hi & Hu & Hs & H5 & H6). apply uN_range in Hu.
  exists s, (s + len). rewrite zlen_cons. split; [destruct (id =? 1); auto|]. repeat split; cbn; lia.
Qed.

Lemma pstep_end e p pl bs p' : pstep e p pl bs p' -> is_end pl -> bs = [] /\ e = true.
Proof.
  intros H Hn. inversion H; subst; clear H; try (exfalso; exact Hn); auto.
  destruct (id =? 1); exfalso; exact Hn.
Qed.

Lemma pstep_nonempty e p pl bs p' : pstep e p pl bs p' -> ~ is_end pl -> bs <> [].
Proof.
  intros H Hn. inversion H; subst; clear H; try discriminate.
  - intros E. apply app_eq_nil in E as [E _].
    match goal with Hu : uN 32 lenb _ |- _ => apply uN_nonempty in Hu; congruence end.
  - exfalso. apply Hn. exact I.
Qed.

Lemma inv_step cur st data n pl cur' cur'' st' :
  inv cur st data -> parse cur data true = (Ok (Parsed n pl), cur') ->
  after_payload cur' st pl = (cur'', st', false) ->
  inv cur'' st' (skipn (Z.to_nat n) data) /\ 0 <= n <= zlen data.
Proof.
  intros Hi Hp Ha. pose proof (inv_fits _ _ _ Hi) as Hf. destruct Hi as (Hle & Hok & Hch).
  pose proof (chain_head _ _ Hch) as [Hc1 Hc2].
  apply parse_sound in Hp as (e' & bs & rest & -> & -> & Hst & Hlim & Hend); auto.
  assert (Hz : 0 <= zlen bs <= zlen (bs ++ rest)).
  { rewrite zlen_app. pose proof (zlen_nonneg bs). pose proof (zlen_nonneg rest). lia. }
  split; [|exact Hz].
  assert (Hsk : skipn (Z.to_nat (zlen bs)) (bs ++ rest) = rest).
  { unfold zlen. rewrite Nat2Z.id, skipn_app, skipn_all, Nat.sub_diag. reflexivity. }
  rewrite Hsk. apply Forall_app in Hok as [_ Hok]. rewrite zlen_app in Hle.
  pose proof (zlen_nonneg rest).
  pose proof (pstep_frame _ _ _ _ _ Hst) as (Fm & Fo & Fc).
  assert (Hmx : max_off cur' = max_off cur) by (unfold max_off; rewrite Fm; reflexivity).
  assert (Hcase : nested pl \/ is_end pl \/ (~ nested pl /\ ~ is_end pl)) by (destruct pl; cbn; tauto).
  destruct Hcase as [Hn|[Hn|[Hn1 Hn2]]].
  - destruct (pstep_nested _ _ _ _ _ Hst Hn) as (s & en & Hpl & -> & Hse & Hen & Ho).
    assert (Ha' : (cur'', st', false) = (child cur (p_offset cur + zlen bs) en, cur' :: st, false)).
    { destruct Hpl as [-> | ->]; cbn in Ha; congruence. }
    injection Ha' as -> ->. split; [cbn; lia|]. split; [exact Hok|].
    cbn [chain child p_offset p_max_offset p_counts].
    split; [unfold max_off; cbn; lia|].
    split; [unfold counts_ok; cbn; repeat split; intros k Hk; discriminate Hk|].
    split; [rewrite Ho; reflexivity|].
    assert (Hg : p_offset cur' <= max_off cur' <= U64MAX /\ counts_ok (p_counts cur')).
    { rewrite Hmx. split; [lia|auto]. }
    destruct st as [|q st0]; cbn in Hch |- *; rewrite ?Fm; tauto.
  - destruct (pstep_end _ _ _ _ _ Hst Hn) as [-> ->].
    destruct pl; try (exfalso; exact Hn). cbn in Ha.
    destruct st as [|q st0]; [discriminate|]. injection Ha as <- <-.
    cbn in Hch. destruct Hch as (_ & _ & Hmo & Hq). split; [|split; [exact Hok|exact Hq]].
    pose proof (chain_head _ _ Hq) as [Hq1 _].
    destruct (Hend eq_refl eq_refl) as [[-> _]|E].
    + change (zlen (@nil Z)) with 0. lia.
    + unfold max_off in E. rewrite Hmo in E. change (zlen (@nil Z)) with 0 in Hle. lia.
  - assert (Ha' : (cur'', st', false) = (cur', st, false)).
    { destruct pl; cbn in *; try tauto; congruence. }
    injection Ha' as -> ->. specialize (Fo Hn1). split; [lia|]. split; [exact Hok|].
    assert (Hg : p_offset cur' <= max_off cur' <= U64MAX /\ counts_ok (p_counts cur')).
    { rewrite Hmx. split; [lia|auto]. }
    destruct st as [|q st0]; cbn in Hch |- *; rewrite ?Fm; tauto.
Qed.

Lemma parse_eof_not_more p d h p' : fits p d -> parse p d true = (Ok (NeedMoreData h), p') -> False.
Proof. intros Hf H. apply parse_more_inv in H as (E & _); [discriminate|exact Hf]. Qed.

Lemma yields_ext s1 s2 tr out : all_next s1 = all_next s2 -> yields s1 tr out -> yields s2 tr out.
Proof.
  intros E H. inversion H; subst; rewrite E in *; [eapply yields_err|eapply yields_last|eapply yields_item]; eauto.
Qed.

(** Inversion of [yields] in terms of one [parse]. *)
Lemma yields_inv cur st D tr out :
  yields (mkAll cur st D false) tr out ->
  match parse cur D true with
  | (Err er, _) => tr = [] /\ out = Some er
  | (Ok (NeedMoreData _), _) => False
  | (Ok (Parsed n pl), cur') =>
      let '(cur'', st', done) := after_payload cur' st pl in
      if done then tr = [pl] /\ out = None
      else exists tr', tr = pl :: tr' /\ yields (mkAll cur'' st' (skipn (Z.to_nat n) D) false) tr' out
  end.
Proof.
  intros H. inversion H as [s e s' E|s pl s' E Ed|s pl s' tr0 out0 E Ed Hy]; subst; unfold all_next in E; cbn [a_done a_cur a_data a_stack] in E;
    destruct (parse cur D true) as [[[h|n pl1]|er] cur'] eqn:Ep; try discriminate.
  - destruct (after_payload cur' st pl1) as [[c s1] d]. discriminate.
  - injection E as <- _. auto.
  - destruct (after_payload cur' st pl1) as [[c s1] d]. injection E as <- <-. cbn in Ed. subst d. auto.
  - destruct (after_payload cur' st pl1) as [[c s1] d]. injection E as <- <-. cbn in Ed. subst d. eauto.
Qed.

Lemma run_stuck cur st buf cs e tr out :
  run cur st buf cs e tr out ->
  fits cur (buf ++ List.concat cs) ->
  (forall x e2, fits cur (buf ++ x) -> exists er, parse cur (buf ++ x) e2 = (Err er, cur) /\ e_msg er = msg_start) ->
  tr = [] /\ exists er, out = Some er /\ e_msg er = msg_start.
Proof.
  induction 1; intros Hf Hall.
  - cbn [List.concat] in Hf. rewrite app_assoc in Hf. apply IHrun; [exact Hf|].
    intros x e2 Hx. rewrite <- app_assoc in *. auto.
  - apply IHrun; auto.
  - exfalso. destruct (Hall [] e) as (er & E & _); [rewrite app_nil_r; apply fits_app in Hf; exact Hf|].
    rewrite app_nil_r in E. congruence.
  - exfalso. destruct (Hall [] e) as (er & E & _); [rewrite app_nil_r; apply fits_app in Hf; exact Hf|].
    rewrite app_nil_r in E. congruence.
  - exfalso. destruct (Hall [] e) as (er & E & _); [rewrite app_nil_r; apply fits_app in Hf; exact Hf|].
    rewrite app_nil_r in E. congruence.
  - destruct (Hall [] e) as (er1 & E & Hm); [rewrite app_nil_r; apply fits_app in Hf; exact Hf|].
    rewrite app_nil_r in E. split; [reflexivity|]. exists er. split; [reflexivity|congruence].
Qed.

Lemma run_agrees cur st buf cs e tr out :
  run cur st buf cs e tr out ->
  inv cur st (buf ++ List.concat cs) -> (e = true -> cs = []) ->
  forall tr' out', yields (mkAll cur st (buf ++ List.concat cs) false) tr' out' ->
    Forall (fun pl => ~ is_component_start pl) tr' ->
    tr = tr' /\ agree out' out.
Proof.
  induction 1 as [cur st buf c cs tr out _ IH | cur st buf tr out _ IH
    | cur st buf cs e h cur' tr out Hp Hr IH | cur st buf cs e n pl cur' cur'' st' tr out Hp Ha Hr IH
    | cur st buf cs e n pl cur' cur'' st' Hp Ha | cur st buf cs e er cur' Hp];
    intros Hi He tr' out' Hy Hns.
  - cbn [List.concat] in *. rewrite app_assoc in *. apply IH; auto. discriminate.
  - apply IH; auto.
  - pose proof (inv_fits _ _ _ Hi) as Hf.
    destruct (bool_dec (starts_seen cur') (starts_seen cur)) as [Hs|Hs].
    + destruct (parse_more_frame _ _ _ _ _ (fits_app _ _ _ Hf) Hp) as (F1 & F2 & _ & F3).
      apply IH; auto.
      * destruct Hi as (H1 & H2 & H3). split; [rewrite F1; exact H1|]. split; [exact H2|].
        eapply chain_frame; eauto.
      * eapply yields_ext; [|exact Hy]. unfold all_next. cbn [a_done a_cur a_data a_stack].
        rewrite (parse_more_ext _ _ _ _ _ (List.concat cs) true Hf Hp Hs). reflexivity.
    + assert (Hst : tr = [] /\ exists er, out = Some er /\ e_msg er = msg_start).
      { destruct (parse_more_frame _ _ _ _ _ (fits_app _ _ _ Hf) Hp) as (F1 & F2 & _ & _).
        eapply run_stuck; [exact Hr|eapply fits_frame; eauto|].
        intros x e2 Hx. eapply parse_more_cut; [|exact Hp|exact Hs].
        revert Hx. apply fits_frame; auto. }
      destruct Hst as (-> & er & -> & Hm).
      destruct (parse_more_cut _ _ _ _ _ (List.concat cs) true Hf Hp Hs) as [_ Hc].
      apply yields_inv in Hy. destruct (parse cur (buf ++ List.concat cs) true) as [[[h'|n pl]|er'] c'].
      * contradiction.
      * cbn in Hc. exfalso. destruct (after_payload c' st pl) as [[c'' st''] d].
        destruct d.
        -- destruct Hy as [-> _]. inversion Hns; contradiction.
        -- destruct Hy as (t & -> & _). inversion Hns; contradiction.
      * destruct Hy as [-> ->]. split; [reflexivity|]. cbn. auto.
  - pose proof (inv_fits _ _ _ Hi) as Hf.
    assert (Hw : parse cur (buf ++ List.concat cs) true = (Ok (Parsed n pl), cur')).
    { destruct e; [|eapply parse_ok_ext; eauto].
      rewrite (He eq_refl). cbn [List.concat]. rewrite app_nil_r. exact Hp. }
    assert (Hn : 0 <= n <= zlen buf).
    { destruct Hi as (_ & Hok & Hch). apply chain_head in Hch as [_ Hcc].
      apply Forall_app in Hok as [Hok _].
      apply parse_sound in Hp as (e' & bs & rest & -> & -> & _); auto; [|eapply fits_app; eauto].
      rewrite zlen_app. pose proof (zlen_nonneg bs). pose proof (zlen_nonneg rest). lia. }
    pose proof (inv_step _ _ _ _ _ _ _ _ Hi Hw Ha) as [Hi' _].
    rewrite skipn_app_le in Hi' by (unfold zlen in Hn; lia).
    apply yields_inv in Hy. rewrite Hw, Ha in Hy. destruct Hy as (t & -> & Hy).
    rewrite skipn_app_le in Hy by (unfold zlen in Hn; lia).
    inversion Hns; subst.
    destruct (IH Hi' He _ _ Hy) as [-> Hag]; auto.
  - pose proof (inv_fits _ _ _ Hi) as Hf.
    assert (Hw : parse cur (buf ++ List.concat cs) true = (Ok (Parsed n pl), cur')).
    { destruct e; [|eapply parse_ok_ext; eauto].
      rewrite (He eq_refl). cbn [List.concat]. rewrite app_nil_r. exact Hp. }
    apply yields_inv in Hy. rewrite Hw, Ha in Hy. destruct Hy as [-> ->]. cbn. auto.
  - pose proof (inv_fits _ _ _ Hi) as Hf.
    assert (Hw : exists er' p'', parse cur (buf ++ List.concat cs) true = (Err er', p'') /\ (er' = er \/ e_msg er' = msg_magic)).
    { destruct e; [|destruct (parse_err_ext _ _ (List.concat cs) _ _ Hf Hp) as (e1 & p1 & E1 & Ho1); exists e1, p1; intuition].
      rewrite (He eq_refl). cbn [List.concat]. rewrite app_nil_r. eauto. }
    destruct Hw as (er' & p'' & Hw & Hor).
    apply yields_inv in Hy. rewrite Hw in Hy. destruct Hy as [-> ->]. cbn. intuition.
Qed.
