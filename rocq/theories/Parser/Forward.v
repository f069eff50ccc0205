(** Well-formed sequences of module sections are accepted, and skipping the code
    section is the same as reading it. *)
From Verif.Base Require Import Prelude Utf8.
From Verif.Reader Require Import Model Spec Mono.
From Verif.Leb Require Import Spec Model Proofs ReaderProofs.
From Verif.Encoder Require Import Model.
From Verif.Parser Require Import Model Proofs Spec Stream Shape Chunks Complete Tiling Module.

Lemma parser_eq p s o : p_state p = s -> p_offset p = o -> set_state (set_offset p o) s = p.
Proof. destruct p; cbn. intros -> ->. reflexivity. Qed.

Lemma entries_path pos bs pls : code_entries_at pos bs pls -> forall p,
  p_state p = SFunctionBody (zlen pls) (zlen bs) -> p_offset p = pos -> pos + zlen bs <= max_off p ->
  mpath p bs pls (set_state (set_offset p (pos + zlen bs)) (SFunctionBody 0 0)).
Proof.
  induction 1 as [pos|pos lenb body bs pls Hu Hc IH]; intros p Hs Ho Hl.
  - change (zlen (@nil Z)) with 0 in *. rewrite Z.add_0_r. subst pos.
    rewrite parser_eq; auto. constructor.
  - rewrite app_assoc. rewrite !zlen_app, zlen_cons in *. subst pos.
    pose proof (zlen_nonneg pls). pose proof (zlen_nonneg bs).
    econstructor.
    + apply (ps_entry true p (1 + zlen pls) (zlen lenb + (zlen body + zlen bs)) lenb body); [rewrite Hs; f_equal; lia|lia|exact Hu|].
      rewrite zlen_app. lia.
    + exact (fun x => x).
    + rewrite zlen_app. lia.
    + match goal with |- mpath ?pp _ _ ?qq => specialize (IH pp) end.
      unfold moved in *.
      cbn [set_state set_offset p_state p_offset max_off p_max_offset p_enc p_feat p_counts p_order] in IH |- *.
      rewrite !zlen_app in *.
      match type of IH with _ -> _ -> _ -> mpath _ _ _ ?x => match goal with |- mpath _ _ _ ?y => replace y with x end end.
      2: { unfold set_state, set_offset; cbn. f_equal. lia. }
      apply IH.
      * f_equal; lia.
      * lia.
      * unfold max_off in *; cbn [p_max_offset set_state set_offset]. lia.
Qed.

Lemma items_app k a b : items_of k (a ++ b) = items_of k a + items_of k b.
Proof.
  induction a as [|pl a IH]; [reflexivity|]. cbn [app]. destruct pl; cbn [items_of]; try exact IH.
  destruct e; [rewrite IH; lia|exact IH].
Qed.
Lemma announced_app a b : announced (a ++ b) = announced a + announced b.
Proof. induction a as [|pl a IH]; [reflexivity|]. cbn [app]. destruct pl; cbn [announced]; try exact IH. rewrite IH; lia. Qed.
Lemma bodies_app a b : bodies_of (a ++ b) = bodies_of a + bodies_of b.
Proof. induction a as [|pl a IH]; [reflexivity|]. cbn [app]. destruct pl; cbn [bodies_of]; try exact IH. rewrite IH; lia. Qed.

Lemma entries_none pos bs pls : code_entries_at pos bs pls ->
  (forall k, items_of k pls = 0) /\ announced pls = 0 /\ bodies_of pls = zlen pls /\
  (forall n rg, ~ In (PDataCount n rg) pls) /\ sections_of pls = [].
Proof.
  induction 1 as [|pos lenb body bs pls Hu Hc IH]; cbn [items_of announced bodies_of sections_of In]; [repeat split; auto|].
  destruct IH as (I1 & I2 & I3 & I4 & I5). repeat split; auto.
  - rewrite zlen_cons. lia.
  - intros n rg [E|E]; [discriminate|]. eapply I4; eauto.
Qed.

Lemma shows_sections s id data pls : shows s id data pls ->
  sections_of pls = [(id, (s, s + zlen data))].
Proof.
  intros H. inversion H; subst; cbn [sections_of]; auto.
  match goal with Hc : code_entries_at _ _ _ |- _ => pose proof (entries_none _ _ _ Hc) as (_ & _ & _ & _ & ->) end. auto.
Qed.

Lemma sections_app a b : sections_of (a ++ b) = sections_of a ++ sections_of b.
Proof. induction a as [|pl a IH]; [reflexivity|]. cbn [app]. destruct pl; cbn [sections_of app]; rewrite ?IH; reflexivity. Qed.

Lemma shows_all_sections pos secs bytes tr : shows_all pos secs bytes tr -> map fst (sections_of tr) = map fst secs.
Proof.
  induction 1 as [|pos id data lenb pls secs bytes tr Hu Hs Hall IH]; [reflexivity|].
  rewrite sections_app, map_app, IH, (shows_sections _ _ _ _ Hs). reflexivity.
Qed.

Lemma shows_order_none pos secs bytes tr : shows_all pos secs bytes tr -> forall lo, ordered lo (map fst secs) ->
  (OFunction <= lo -> items_of 3 tr = 0) /\ (OData <= lo -> items_of 11 tr = 0) /\ (OCode <= lo -> announced tr = 0).
Proof.
  induction 1 as [pos|pos id data lenb pls secs bytes tr Hu Hs Hall IH]; intros lo Ho.
  - cbn. auto.
  - cbn [map fst ordered] in Ho. rewrite !items_app, announced_app.
    inversion Hs as [nb name dt|? cb count items Hin|fb f|cb n|cb bs pls0 Hu0 Hc|? dt Hid]; subst;
      cbn [items_of announced section_order] in *.
    + destruct (IH _ Ho) as (I1 & I2 & I3). repeat split; intros; rewrite ?I1, ?I2, ?I3 by assumption; reflexivity.
    + destruct (section_order id) as [o|] eqn:Eo.
      2:{ exfalso. cbn [In] in Hin. repeat (destruct Hin as [<-|Hin]; [discriminate|]). exact Hin. }
      destruct Ho as [Hlt Ho]. destruct (IH _ Ho) as (I1 & I2 & I3). repeat split; intros Hx.
      * rewrite I1 by lia. destruct (Z.eqb_spec id 3); [|lia]. subst. injection Eo as <-. lia.
      * rewrite I2 by lia. destruct (Z.eqb_spec id 11); [|lia]. subst. injection Eo as <-. lia.
      * rewrite I3 by lia. reflexivity.
    + destruct Ho as [Hlt Ho]. destruct (IH _ Ho) as (I1 & I2 & I3).
      repeat split; intros Hx; rewrite ?I1, ?I2, ?I3 by lia; reflexivity.
    + destruct Ho as [Hlt Ho]. destruct (IH _ Ho) as (I1 & I2 & I3).
      repeat split; intros Hx; rewrite ?I1, ?I2, ?I3 by lia; reflexivity.
    + destruct Ho as [Hlt Ho]. destruct (IH _ Ho) as (I1 & I2 & I3).
      pose proof (entries_none _ _ _ Hc) as (He & He2 & _). unfold OFunction, OData, OCode in *.
      repeat split; intros Hx.
      * rewrite I1 by lia. rewrite He. reflexivity.
      * rewrite I2 by lia. rewrite He. reflexivity.
      * lia.
    + assert (section_order id = None) as E.
      { apply section_order_known. unfold known_id. lia. }
      rewrite E in Ho. destruct (IH _ Ho) as (I1 & I2 & I3). repeat split; intros; rewrite ?I1, ?I2, ?I3 by assumption; reflexivity.
Qed.

Lemma step_data_count e p pl bs p' k : minv p -> pstep e p pl bs p' ->
  data_count (p_counts p') = Some k -> data_count (p_counts p) = Some k \/ exists rg, pl = PDataCount k rg.
Proof.
  intros Hm H. pinv H; subst; clear H; unfold moved;
    try match goal with Ha : at_sections p _ |- _ => apply at_sections_facts in Ha as (Qc & _) end;
    cbn [set_offset set_state set_enc set_order set_counts p_counts]; rewrite ?Qc; auto.
  - unfold bump. repeat match goal with |- context [?a =? ?b] => destruct (Z.eqb_spec a b) end; subst;
      cbn [data_count]; auto; congruence.
  - unfold bump. cbn [Z.eqb Pos.eqb data_count]. intros [= ->]. right. eauto.
Qed.

Lemma shows_path pos secs bytes tr : shows_all pos secs bytes tr -> forall p q,
  pos = p_offset p -> at_sections p q -> minv p -> ordered (fst (p_order p)) (map fst secs) ->
  pos + zlen bytes <= max_off p -> max_off p <= U64MAX ->
  fents (p_counts p) + items_of 3 tr = cents (p_counts p) + announced tr ->
  (forall n, data_count (p_counts p) = Some n -> n = dents (p_counts p) + items_of 11 tr) ->
  (forall n rg, In (PDataCount n rg) tr -> n = dents (p_counts p) + items_of 11 tr) ->
  exists p' q', mpath p bytes tr p' /\ at_sections p' q'.
Proof.
  induction 1 as [pos|pos id data lenb pls secs bytes tr Hu Hs Hall IH]; intros p q Hpos Ha Hm Hord Hlim Hmx Hfc Hdc Hdcs.
  { exists p, q. split; [constructor|exact Ha]. }
  subst pos. cbn [map fst ordered] in Hord. rewrite zlen_cons, !zlen_app in Hlim.
  pose proof (zlen_nonneg bytes) as Zb. pose proof (zlen_nonneg data) as Zd. pose proof (zlen_nonneg lenb) as Zl.
  assert (Hhd : 0 <= id < 128 -> header_at p id lenb (zlen data) (p_offset p + 1 + zlen lenb)).
  { intros Hid. repeat split; auto; lia. }
  assert (Hordk : forall o, fst (p_order p) < o -> forall s, order_ok p o s).
  { intros o Hlt s (_ & H2 & _). lia. }
  rewrite !items_app, announced_app in *.
  (* the rest, once this section has led from p to pm *)
  assert (Hgo : forall pm, mpath p (id :: lenb ++ data) pls pm -> (exists qm, at_sections pm qm) ->
     (forall n, data_count (p_counts pm) = Some n -> data_count (p_counts p) = Some n \/ exists rg, In (PDataCount n rg) pls) ->
     minv pm -> p_offset pm = p_offset p + zlen (id :: lenb ++ data) -> p_max_offset pm = p_max_offset p ->
     ordered (fst (p_order pm)) (map fst secs) ->
     exists p' q', mpath p (id :: lenb ++ data ++ bytes) (pls ++ tr) p' /\ at_sections p' q').
  { intros pm Hpm [qm Hqm] Hdm Hmm Hom Hmxm Hordm.
    destruct (path_counts _ _ _ _ Hpm Hm) as (C1 & C2 & C3 & _ & C5 & C6).
    assert (Hmax1 : max_off pm = max_off p) by (unfold max_off; rewrite Hmxm; reflexivity).
    rewrite zlen_cons, zlen_app in Hom.
    destruct (IH pm qm) as (p' & q' & Hp' & Ha'); auto; try lia.
    - intros n Hn. destruct (Hdm n Hn) as [Hx|[rg Hx]].
      + rewrite (Hdc _ Hx). lia.
      + rewrite (Hdcs n rg) by (apply in_or_app; auto). lia.
    - intros n rg Hin. rewrite (Hdcs n rg) by (apply in_or_app; auto). lia.
    - exists p', q'. split; [|exact Ha'].
      replace (id :: lenb ++ data ++ bytes) with ((id :: lenb ++ data) ++ bytes) by (cbn [app]; rewrite <- app_assoc; reflexivity).
      eapply mpath_app; eauto. }
  (* sections delivered in one step *)
  assert (Hone : forall pl p1, pls = [pl] -> pstep true p pl (id :: lenb ++ data) p1 -> ~ is_end pl ->
     (exists qm, at_sections p1 qm) -> ordered (fst (p_order p1)) (map fst secs) ->
     exists p' q', mpath p (id :: lenb ++ data ++ bytes) (pls ++ tr) p' /\ at_sections p' q').
  { intros pl p1 E Hst Hne Hq1 Ho1. pose proof (minv_step _ _ _ _ _ Hm Hst) as [Hm1 Hnn].
    pose proof (pstep_frame _ _ _ _ _ Hst) as (Fm & Fo & _).
    apply (Hgo p1); auto.
    - rewrite E. rewrite <- (app_nil_r (id :: lenb ++ data)). econstructor; eauto; [|constructor].
      rewrite zlen_cons, zlen_app. lia.
    - intros n Hn. destruct (step_data_count _ _ _ _ _ _ Hm Hst Hn) as [|[rg ->]]; [auto|]. right. exists rg. rewrite E. left. reflexivity. }
  pose proof (at_sections_facts _ _ Ha) as (Qc & Qo & Qe & Qf & Qm & Qft & Qs).
  inversion Hs as [nb name dt Hn Hnl Hv|? cb count items Hin Hc|fb f Hf|cb n Hc|cb bs pls0 Hu0 Hc|? dt Hid]; subst;
    cbn [section_order] in Hord.
  - eapply Hone; [reflexivity|eapply ps_custom; eauto| exact (fun x => x) | | ].
    + apply Hhd; lia.
    + eexists. left. split; [|reflexivity]. exact Qs.
    + unfold moved. cbn [set_offset p_order]. rewrite Qo. exact Hord.
  - destruct (section_order id) as [o|] eqn:Eo.
    2:{ exfalso. cbn [In] in Hin. repeat (destruct Hin as [<-|Hin]; [discriminate|]). exact Hin. }
    destruct Hord as [Hlt Hord].
    assert (Hids : 0 <= id < 128 /\ id <> 8 /\ id <> 10 /\ id <> 12) by (cbn [In] in Hin; lia).
    eapply Hone; [reflexivity|eapply ps_limited with (o := o); try eassumption; try tauto| exact (fun x => x) | | ].
    + apply Hm.
    + apply Hordk; auto.
    + intros ->. injection Eo as <-. intros n Hn. unfold bump in *.
      cbn [Z.eqb Pos.eqb data_entries data_count items_of] in *.
      rewrite (Hdc n Hn).
      destruct (shows_order_none _ _ _ _ Hall _ Hord) as (_ & I2 & _). rewrite (I2 ltac:(lia)).
      assert (dents (p_counts p) = 0).
      { unfold dents. destruct (data_entries (p_counts p)) eqn:Ed; [|reflexivity].
        pose proof (mi_d _ Hm ltac:(rewrite Ed; discriminate)). lia. }
      lia.
    + eexists. left. split; [|reflexivity]. exact Qs.
    + unfold moved. cbn [set_offset set_counts set_order p_order fst]. exact Hord.
  - destruct Hord as [Hlt Hord].
    eapply Hone; [reflexivity|eapply ps_start; eauto| exact (fun x => x) | | ].
    + apply Hm.
    + apply Hhd; lia.
    + eexists. left. split; [|reflexivity]. exact Qs.
    + unfold moved. cbn [set_offset set_counts set_order p_order fst]. exact Hord.
  - destruct Hord as [Hlt Hord].
    eapply Hone; [reflexivity|eapply ps_data_count; eauto| exact (fun x => x) | | ].
    + apply Hm.
    + apply Hhd; lia.
    + eexists. left. split; [|reflexivity]. exact Qs.
    + unfold moved. cbn [set_offset set_counts set_order p_order fst]. exact Hord.
  - destruct Hord as [Hlt Hord]. rewrite !zlen_app in *.
    pose proof (entries_none _ _ _ Hc) as (N1 & N2 & _ & N4 & _).
    destruct (shows_order_none _ _ _ _ Hall _ Hord) as (I1 & _ & I3).
    assert (Hst : pstep true p (PCodeStart (zlen pls0) (p_offset p + 1 + zlen lenb, p_offset p + 1 + zlen lenb + zlen (cb ++ bs)) (zlen (cb ++ bs) - zlen cb))
        (10 :: lenb ++ cb)
        (moved (set_state (set_counts (set_order q (OCode, p_offset p + 1 + zlen lenb)) (bump 10 (zlen pls0) (p_counts p)))
                (SFunctionBody (zlen pls0) (zlen (cb ++ bs) - zlen cb))) (10 :: lenb ++ cb))).
    { eapply ps_code; eauto.
      - apply Hm.
      - rewrite zlen_app. apply Hhd. lia.
      - rewrite zlen_app. pose proof (zlen_nonneg bs). lia.
      - unfold funcs_agree, bump. cbn [Z.eqb Pos.eqb function_entries code_entries items_of announced] in *.
        change (fents (p_counts p) = zlen pls0).
        rewrite (N1 3), N2, I1, I3 in Hfc by (unfold OCode, OFunction; lia).
        assert (cents (p_counts p) = 0).
        { unfold cents. destruct (code_entries (p_counts p)) eqn:Ed; [|reflexivity].
          pose proof (mi_c _ Hm ltac:(rewrite Ed; discriminate)). lia. }
        lia. }
    rewrite zlen_app in Hst. replace (zlen cb + zlen bs - zlen cb) with (zlen bs) in Hst by lia.
    pose proof (minv_step _ _ _ _ _ Hm Hst) as [Hm1 _].
    pose proof (zlen_nonneg cb) as Zc. pose proof (zlen_nonneg bs) as Zbs.
    match type of Hst with pstep _ _ _ _ ?pp => pose proof (entries_path _ _ _ Hc pp) as Hep end.
    assert (Hmo : forall b, max_off (moved (set_state (set_counts (set_order q (OCode, p_offset p + 1 + zlen lenb)) (bump 10 (zlen pls0) (p_counts p)))
                (SFunctionBody (zlen pls0) (zlen bs))) b) = max_off p).
    { intros b. unfold max_off, moved. cbn [set_offset set_state set_counts set_order p_max_offset]. rewrite Qm. reflexivity. }
    rewrite Hmo in Hep.
    assert (Hepp : p_offset (moved (set_state (set_counts (set_order q (OCode, p_offset p + 1 + zlen lenb)) (bump 10 (zlen pls0) (p_counts p)))
                (SFunctionBody (zlen pls0) (zlen bs))) (10 :: lenb ++ cb)) = p_offset p + 1 + zlen lenb + zlen cb).
    { unfold moved. cbn [set_offset set_state set_counts set_order p_offset]. rewrite Qf, zlen_cons, zlen_app. lia. }
    specialize (Hep eq_refl Hepp ltac:(lia)).
    match type of Hep with mpath _ _ _ ?pp => apply (Hgo pp) end.
    + replace (10 :: lenb ++ cb ++ bs) with ((10 :: lenb ++ cb) ++ bs) by (cbn [app]; rewrite <- app_assoc; reflexivity).
      econstructor; [exact Hst|exact (fun x => x)| |exact Hep].
      rewrite zlen_cons, zlen_app. lia.
    + eexists. right. split; reflexivity.
    + intros n Hn. left. unfold moved in Hn. cbn in Hn. exact Hn.
    + destruct Hm1 as [M1 M2 M3 M4 M5 M6 M7 M8].
      constructor; cbn [set_state set_offset p_enc p_state p_order p_offset p_counts]; auto; try discriminate.
      rewrite Hepp in M3. lia.
    + unfold moved. cbn [set_offset set_state p_offset]. rewrite zlen_cons, !zlen_app. lia.
    + unfold moved. cbn. exact Qm.
    + unfold moved. cbn. exact Hord.
  - eapply Hone; [reflexivity|eapply ps_unknown; eauto| exact (fun x => x) | | ].
    + lia.
    + rewrite (mi_enc _ Hm). apply section_order_known. unfold known_id. lia.
    + apply Hhd; lia.
    + eexists. left. split; [|reflexivity]. exact Qs.
    + unfold moved. cbn [set_offset p_order]. rewrite Qo.
      assert (section_order id = None) as E by (apply section_order_known; unfold known_id; lia).
      rewrite E in Hord. exact Hord.
Qed.

(** ** What is accepted consists of well-formed sections *)
Lemma entries_shape p data tr p' : mpath p data tr p' -> forall k l0 q0,
  p_state p = SFunctionBody k l0 -> at_sections p' q0 -> minv p -> 0 <= k ->
  exists d1 d2 tr1 tr2 pm, data = d1 ++ d2 /\ zlen d1 = l0 /\ tr = tr1 ++ tr2 /\ zlen tr1 = k /\
    code_entries_at (p_offset p) d1 tr1 /\
    mpath pm d2 tr2 p' /\ p_state pm = SFunctionBody 0 0 /\ p_offset pm = p_offset p + l0 /\ minv pm.
Proof.
  induction 1 as [p|p pl bs p1 dt tr p2 Hst Hne Hlim Hp IH]; intros n0 l0 q0 Es0 Ha0 Hm Hn0.
  { destruct Ha0 as [[E _]|[E _]]; rewrite Es0 in E; [discriminate|]. injection E as -> ->.
    exists [], [], [], [], p. rewrite Z.add_0_r. repeat split; auto; try constructor; try apply Hm. }
  pose proof (minv_step _ _ _ _ _ Hm Hst) as [Hm1 Hnn].
  assert (Hcase : (n0 = 0 /\ l0 = 0) \/ exists lenb body,
    pl = PCodeEntry (p_offset p + zlen lenb, p_offset p + zlen lenb + zlen body) body /\ bs = lenb ++ body /\
    uN 32 lenb (zlen body) /\ n0 <> 0 /\
    p1 = moved (set_state p (SFunctionBody (n0 - 1) (l0 - zlen (lenb ++ body)))) (lenb ++ body)).
  { pinv Hst; subst;
      try (match goal with Ha : at_sections p _ |- _ => destruct Ha as [[E _]|[E _]]; rewrite Es0 in E; [discriminate|];
             injection E as -> ->; left; auto end);
      try congruence.
    right. rewrite Es0 in Es. injection Es as -> ->. exists lenb, body. auto. }
  destruct Hcase as [[-> ->]|(lenb & body & -> & -> & Hu & Hnz & ->)].
  - exists [], (bs ++ dt), [], (pl :: tr), p. rewrite Z.add_0_r. repeat split; auto; try apply Hm; try constructor. econstructor; eauto.
  - destruct (IH (n0 - 1) (l0 - zlen (lenb ++ body)) q0 eq_refl Ha0 Hm1 ltac:(lia))
      as (d1 & d2 & tr1 & tr2 & pm & -> & Hl & -> & Hk & Hce & Hpm & Hs & Ho & Hmm).
    exists ((lenb ++ body) ++ d1), d2, (PCodeEntry (p_offset p + zlen lenb, p_offset p + zlen lenb + zlen body) body :: tr1), tr2, pm.
    repeat split; auto; try apply Hmm.
    + rewrite app_assoc. reflexivity.
    + rewrite !zlen_app in *. lia.
    + rewrite zlen_cons. lia.
    + rewrite <- app_assoc. constructor; [exact Hu|].
      unfold moved in Hce. cbn [set_offset set_state p_offset] in Hce. rewrite zlen_app, Z.add_assoc in Hce. exact Hce.
    + rewrite Ho. unfold moved. cbn [set_offset set_state p_offset]. lia.
Qed.

Lemma path_shows k : forall p bytes tr p' qa q',
  (List.length tr <= k)%nat -> mpath p bytes tr p' -> at_sections p qa -> at_sections p' q' -> minv p ->
  exists secs, shows_all (p_offset p) secs bytes tr.
Proof.
  induction k as [|k IH]; intros p bytes tr p' qa q' Htl Hp Hqa Hq' Hm.
  { destruct tr; [|cbn in Htl; lia]. inversion Hp; subst. exists []. constructor. }
  inversion Hp as [|? pl bs p1 dt tr1 ? Hst Hne Hlim Hp1]; subst; [exists []; constructor|].
  cbn in Htl.
  pose proof (minv_step _ _ _ _ _ Hm Hst) as [Hm1 Hnn].
  pose proof (pstep_frame _ _ _ _ _ Hst) as (_ & Fo & _). specialize (Fo Hnn).
  assert (Hwhole : forall ix lx contents s, bs = ix :: lx ++ contents ->
      header_at p ix lx (zlen contents) s -> (exists q1, at_sections p1 q1) ->
      shows s ix contents [pl] ->
      exists secs, shows_all (p_offset p) secs (bs ++ dt) (pl :: tr1)).
  { intros ix lx contents s -> (_ & Hu & -> & _) [q1 Hq1] Hsh.
    destruct (IH _ _ _ _ _ _ ltac:(exact (le_S_n _ _ Htl)) Hp1 Hq1 Hq' Hm1) as [secs Hs].
    exists ((ix, contents) :: secs). change (pl :: tr1) with ([pl] ++ tr1).
    cbn [app]. rewrite <- app_assoc. change (pl :: tr1) with ([pl] ++ tr1). constructor; auto.
    rewrite Fo, zlen_cons, zlen_app in Hs.
    replace (p_offset p + 1 + zlen lx + zlen contents) with (p_offset p + (1 + (zlen lx + zlen contents))) by lia. exact Hs. }
  assert (Hnext : forall q0 p2, at_sections p q0 -> p_state p2 = p_state q0 -> exists q1, at_sections p2 q1).
  { intros q0 p2 Ha0 Hs2. exists p2. left. split; [|reflexivity]. apply at_sections_facts in Ha0 as (_ & _ & _ & _ & _ & _ & Hs). congruence. }
  pinv Hst; subst;
    try (exfalso; apply (mi_state _ Hm); assumption);
    try (exfalso; apply Hne; exact I);
    try (match goal with He : p_enc p = EComponent |- _ => rewrite (mi_enc _ Hm) in He; discriminate end);
    try (eapply Hwhole; [reflexivity|eassumption|eapply Hnext; [eassumption|reflexivity]|]).
  - constructor; auto.
  - constructor; auto.
    assert (Hk13 : known_id id = true).
    { destruct (known_id id) eqn:E; [reflexivity|]. apply section_order_known in E. congruence. }
    unfold known_id in Hk13. cbn [In]. lia.
  - constructor; auto.
  - constructor; auto.
  - destruct (entries_shape _ _ _ _ Hp1 count (len - zlen cb) q' eq_refl Hq' Hm1)
        as (d1 & d2 & t1 & t2 & pm & -> & Hl1 & -> & Hkk & Hce & Hpm & Hsm & Hom & Hmm).
    { apply uN_range in Hu. lia. }
    rewrite app_length in Htl.
    assert (Hlt : (List.length t2 <= k)%nat) by lia.
    destruct (IH _ _ _ _ (set_state pm SSectionStart) _ Hlt Hpm (or_intror (conj Hsm eq_refl)) Hq' Hmm) as [secs Hs].
    rewrite Hom, Fo in Hs. rewrite Fo in Hce.
    destruct Hh as (_ & Hul & -> & _).
    replace len with (zlen (cb ++ d1)) in * by (rewrite zlen_app; lia).
    exists ((10, cb ++ d1) :: secs).
    rewrite zlen_cons, zlen_app in Hs. rewrite zlen_cons, zlen_app in Hce.
    cbn [app]. rewrite <- !app_assoc. rewrite (app_assoc cb d1 d2).
    change (PCodeStart count (p_offset p + 1 + zlen lenb, p_offset p + 1 + zlen lenb + zlen (cb ++ d1)) (zlen (cb ++ d1) - zlen cb) :: t1 ++ t2)
      with ((PCodeStart count (p_offset p + 1 + zlen lenb, p_offset p + 1 + zlen lenb + zlen (cb ++ d1)) (zlen (cb ++ d1) - zlen cb) :: t1) ++ t2).
    constructor; [exact Hul| |].
    + rewrite <- Hl1. subst count. constructor; [exact Hu|].
      replace (p_offset p + 1 + zlen lenb + zlen cb) with (p_offset p + (1 + (zlen lenb + zlen cb))) by lia. exact Hce.
    + replace (p_offset p + 1 + zlen lenb + zlen (cb ++ d1))
        with (p_offset p + (1 + (zlen lenb + zlen cb)) + (zlen (cb ++ d1) - zlen cb)) by lia. exact Hs.
  - exfalso. destruct Hqa as [[E _]|[E _]]; rewrite E in Es; [discriminate|congruence].
  - rewrite (mi_enc _ Hm) in Hk. apply section_order_known in Hk. unfold known_id in Hk.
    destruct Hh as (Hb & _). constructor. lia.
Qed.

(** The description of a sequence of sections is unambiguous. *)
Lemma entries_fun pos bs pls : code_entries_at pos bs pls -> forall pls', code_entries_at pos bs pls' -> pls' = pls.
Proof.
  induction 1 as [pos|pos lenb body bs pls Hu Hc IH]; intros pls' H'.
  - inversion H' as [|? lenb body bs pls Hu Hc E0 E]; [reflexivity|]. exfalso.
    apply app_eq_nil in E as [-> _]. apply uN_nonempty in Hu. congruence.
  - inversion H' as [? E|? lenb1 body1 bs1 pls1 Hu1 Hc1 E1 E2].
    + exfalso. match goal with E : [] = _ ++ _ |- _ => symmetry in E; apply app_eq_nil in E as [-> _] end. apply uN_nonempty in Hu. congruence.
    + subst. pose proof (uN_prefix_free _ _ _ Hu1 _ _ _ _ _ Hu E2) as ->.
      apply app_inv_head in E2. pose proof (uN_functional _ _ _ Hu1 _ _ Hu) as El.
      apply app_len_inj in E2 as [-> ->]; [|exact El]. f_equal. apply IH. exact Hc1.
Qed.

Lemma uN_split n a v x b w y : uN n a v -> uN n b w -> a ++ x = b ++ y -> a = b /\ v = w /\ x = y.
Proof.
  intros Ha Hb E. pose proof (uN_prefix_free _ _ _ Ha _ _ _ _ _ Hb E) as ->.
  split; [reflexivity|]. split; [eapply uN_functional; eauto|]. eapply app_inv_head; eauto.
Qed.

Lemma uN_split_nil n a v b w : uN n a v -> uN n b w -> a = b -> v = w.
Proof. intros Ha Hb ->. eapply uN_functional; eauto. Qed.

Lemma shows_fun s id data pls pls' : shows s id data pls -> shows s id data pls' -> pls' = pls.
Proof.
  intros H H'.
  inversion H as [nb name dt Hn Hnl Hv|? cb count items Hin Hc|fb f Hf|cb n Hc|cb bs pls0 Hu0 Hc|? dt Hid]; subst;
  inversion H' as [nb1 name1 dt1 Hn1 Hnl1 Hv1 E0 E1|? cb1 count1 items1 Hin1 Hc1 E0 E1|fb1 f1 Hf1 E0 E1|cb1 n1 Hc1 E0 E1|cb1 bs1 pls1 Hu1 Hc1 E0 E1|? dt1 Hid1 E0 E1]; subst;
    try (exfalso; cbn [In] in *; lia).
  - destruct (uN_split _ _ _ _ _ _ _ Hn1 Hn E1) as (-> & El & E2). apply app_len_inj in E2 as [-> ->]; auto.
  - destruct (uN_split _ _ _ _ _ _ _ Hc1 Hc E1) as (-> & -> & ->). reflexivity.
  - rewrite (uN_functional _ _ _ Hf1 _ _ Hf). reflexivity.
  - rewrite (uN_functional _ _ _ Hc1 _ _ Hc). reflexivity.
  - destruct (uN_split _ _ _ _ _ _ _ Hu1 Hu0 E1) as (-> & -> & ->). rewrite (entries_fun _ _ _ Hc _ Hc1). reflexivity.
  - reflexivity.
Qed.

Lemma shows_all_fun pos secs bytes tr : shows_all pos secs bytes tr ->
  forall secs' tr', shows_all pos secs' bytes tr' -> secs' = secs /\ tr' = tr.
Proof.
  induction 1 as [pos|pos id data lenb pls secs bytes tr Hu Hs Hall IH]; intros secs' tr' H'.
  - inversion H'; subst. auto.
  - inversion H' as [|? id1 data1 lenb1 pls1 secs1 bytes1 tr1 Hu1 Hs1 Hall1 E0 E1 E2 E3]; subst.
    match goal with E2 : lenb1 ++ _ = lenb ++ _ |- _ => destruct (uN_split _ _ _ _ _ _ _ Hu1 Hu E2) as (-> & El & E4) end.
    apply app_len_inj in E4 as [-> ->]; [|exact El].
    destruct (IH _ _ Hall1) as [-> ->]. rewrite (shows_fun _ _ _ _ _ Hs Hs1). auto.
Qed.

(** ** From a path to the iterator *)
Lemma path_data_count p bytes tr p' k : mpath p bytes tr p' -> minv p ->
  data_count (p_counts p') = Some k -> data_count (p_counts p) = Some k \/ exists rg, In (PDataCount k rg) tr.
Proof.
  induction 1 as [p|p pl bs p1 dt tr p2 Hst Hne Hlim Hp IH]; intros Hm Hk; [auto|].
  pose proof (minv_step _ _ _ _ _ Hm Hst) as [Hm1 _].
  destruct (IH Hm1 Hk) as [Hx|[rg Hx]]; [|right; exists rg; right; exact Hx].
  destruct (step_data_count _ _ _ _ _ _ Hm Hst Hx) as [|[rg ->]]; [auto|]. right. exists rg. left. reflexivity.
Qed.

Lemma path_yields p data tr p' q' : mpath p data tr p' -> inv p [] data -> minv p -> at_sections p' q' ->
  funcs_agree (p_counts p') -> data_agree (p_counts p') ->
  yields (mkAll p [] data false) (tr ++ [PEnd (p_offset p')]) None.
Proof.
  induction 1 as [p|p pl bs p1 dt tr p2 Hst Hne Hlim Hp IH]; intros Hi Hm Ha Hf Hd.
  - cbn [app]. eapply yields_last.
    + unfold all_next. cbn [a_done a_cur a_data a_stack].
      rewrite (parse_complete_end p (p_offset p) (moved q' [])); [|eapply inv_fits; eauto|apply ps_end; auto].
      cbn. reflexivity.
    + reflexivity.
  - pose proof (minv_step _ _ _ _ _ Hm Hst) as [Hm1 Hnn].
    pose proof (parse_complete _ _ _ dt _ true (inv_fits _ _ _ Hi) (proj1 (proj2 Hi)) Hlim Hne Hst) as Ep.
    assert (Ea : after_payload p1 [] pl = (p1, [], false)) by (destruct pl; cbn in *; try tauto; try reflexivity; exfalso; apply Hne; exact I).
    pose proof (inv_step _ _ _ _ _ _ _ _ Hi Ep Ea) as [Hi1 _]. rewrite skipn_zlen_app in Hi1.
    cbn [app]. eapply (yields_item _ pl (mkAll p1 [] dt false)); [|reflexivity|apply (IH Hi1 Hm1 Ha Hf Hd)].
    unfold all_next. cbn [a_done a_cur a_data a_stack]. rewrite Ep, Ea, skipn_zlen_app. reflexivity.
Qed.
