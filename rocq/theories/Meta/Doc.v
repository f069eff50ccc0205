(** What [parse_all] delivers for a module or component is the report of a document, and conversely. *)
From Verif.Base Require Import Prelude Utf8.
From Verif.Reader Require Import Model Spec Mono.
From Verif.Leb Require Import Spec Model Proofs ReaderProofs.
From Verif.Encoder Require Import Model.
From Verif.Parser Require Import Model Proofs Spec Stream Shape Chunks Complete Tiling Module Forward.
From Verif.Meta Require Import Model Spec.
From Coq Require Import Lia.

Definition nested_payload (id : Z) (q : parser) (rg : Z * Z) : payload := (if id =? 1 then PModule else PComponent) q rg.
Definition is_code (pl : payload) : Prop := match pl with PCodeStart _ _ _ => True | _ => False end.

(** A run of the parser [p] over the sections in [bs].  With [x] the lengths of nested modules and components are
    those of their bytes; otherwise the last may be cut off by the end of the input. *)
Inductive holds (x : bool) : parser -> list item -> list payload -> list Z -> parser -> Prop :=
| ho_nil p : holds x p [] [] [] p
| ho_sec p pl id lenb c p1 items tr bs p' :
    pstep true p pl (id :: lenb ++ c) p1 -> uN 32 lenb (zlen c) ->
    as_section pl = Some (id, (p_offset p + 1 + zlen lenb, p_offset p + 1 + zlen lenb + zlen c)) ->
    ~ nested pl -> ~ is_code pl -> p_offset p + zlen (id :: lenb ++ c) <= max_off p ->
    holds x p1 items tr bs p' ->
    holds x p (Sec id c :: items) (pl :: tr) ((id :: lenb ++ c) ++ bs) p'
| ho_code p lenb cb ents ebs p1 items tr bs p' :
    pstep true p (PCodeStart (zlen ents) (p_offset p + 1 + zlen lenb, p_offset p + 1 + zlen lenb + zlen (cb ++ ebs)) (zlen ebs)) (10 :: lenb ++ cb) p1 ->
    uN 32 lenb (zlen (cb ++ ebs)) ->
    code_entries_at (p_offset p1) ebs ents -> p_offset p1 + zlen ebs <= max_off p ->
    holds x (set_state (set_offset p1 (p_offset p1 + zlen ebs)) (SFunctionBody 0 0)) items tr bs p' ->
    holds x p (Sec 10 (cb ++ ebs) :: items) (PCodeStart (zlen ents) (p_offset p + 1 + zlen lenb, p_offset p + 1 + zlen lenb + zlen (cb ++ ebs)) (zlen ebs) :: ents ++ tr)
      ((10 :: lenb ++ cb ++ ebs) ++ bs) p'
| ho_sub p id lenb len s p1 num e rg c1 sub tr1 bs1 c2 c3 items tr2 bs2 p' :
    (id = 1 \/ id = 4) -> s = p_offset p + 1 + zlen lenb -> uN 32 lenb len ->
    pstep true p (nested_payload id (child p s (s + len)) (s, s + len)) (id :: lenb) p1 ->
    p_offset p1 = s + len -> s + len <= max_off p ->
    pstep true (child p s (s + len)) (PVersion num e rg) (header_of e) c1 -> 8 <= len ->
    holds x c1 sub tr1 bs1 c2 ->
    pstep true c2 (PEnd (p_offset c2)) [] c3 ->
    (8 + zlen bs1 = len \/ (x = false /\ bs2 = [] /\ 8 + zlen bs1 <= len)) ->
    holds x p1 items tr2 bs2 p' ->
    holds x p (Sub id e sub :: items) (nested_payload id (child p s (s + len)) (s, s + len) :: PVersion num e rg :: tr1 ++ PEnd (p_offset c2) :: tr2)
      ((id :: lenb) ++ header_of e ++ bs1 ++ bs2) p'.

Lemma holds_frame x p items tr bs p' : holds x p items tr bs p' -> p_max_offset p' = p_max_offset p.
Proof.
  induction 1 as [p|p pl id lenb c p1 items tr bs p' Hst Hu Has Hn Hc Hl H IH|p lenb cb ents ebs p1 items tr bs p' Hst Hu Hce Hl H IH
    |p id lenb len s p1 num e rg c1 sub tr1 bs1 c2 c3 items tr2 bs2 p' Hid Hs Hu Hst Ho Hlim Hv H8 H1 IH1 He Hx H2 IH2]; [reflexivity| | |].
  - rewrite IH. apply (pstep_frame _ _ _ _ _ Hst).
  - rewrite IH. cbn. apply (pstep_frame _ _ _ _ _ Hst).
  - rewrite IH2. apply (pstep_frame _ _ _ _ _ Hst).
Qed.
Lemma holds_nil x p items tr bs p' : holds x p items tr bs p' -> bs = [] -> items = [] /\ tr = [] /\ p' = p.
Proof. intros H. inversion H; subst; try discriminate. auto. Qed.
Lemma holds_offset x p items tr bs p' : holds x p items tr bs p' ->
  p_offset p + zlen bs <= p_offset p' /\ (x = true -> p_offset p' = p_offset p + zlen bs).
Proof.
  induction 1 as [p|p pl id lenb c p1 items tr bs p' Hst Hu Has Hn Hc Hl H IH|p lenb cb ents ebs p1 items tr bs p' Hst Hu Hce Hl H IH
    |p id lenb len s p1 num e rg c1 sub tr1 bs1 c2 c3 items tr2 bs2 p' Hid Hs Hu Hst Ho Hlim Hv H8 H1 IH1 He Hx H2 IH2].
  - rewrite zlen_nil. lia.
  - pose proof (pstep_frame _ _ _ _ _ Hst) as (_ & Fo & _). specialize (Fo Hn). rewrite zlen_app. destruct IH as (A & B). split; [lia|]. intros E. specialize (B E). lia.
  - pose proof (pstep_frame _ _ _ _ _ Hst) as (_ & Fo & _). specialize (Fo (fun x => x)). cbn [p_offset set_state set_offset] in IH. destruct IH as (A & B).
    rewrite !zlen_app, !zlen_cons, !zlen_app in *. split; [lia|]. intros E. specialize (B E). lia.
  - destruct IH2 as (A & B). assert (zlen (header_of e) = 8) as Hh by (destruct e; reflexivity). rewrite !zlen_app, !zlen_cons, Hh. split; [destruct Hx as [Hx|(_ & -> & Hx)]; rewrite ?zlen_nil in *; lia|].
    intros E. specialize (B E). destruct Hx as [Hx|(Hx & _)]; [lia|congruence].
Qed.

(** * One step *)
Lemma yields_step cur st data tr : yields (mkAll cur st data false) tr None -> inv cur st data ->
  exists pl bs rest cur', data = bs ++ rest /\ pstep true cur pl bs cur' /\ p_offset cur + zlen bs <= max_off cur /\
    (is_end pl -> rest = [] \/ p_offset cur = max_off cur) /\
    match after_payload cur' st pl with
    | (_, _, true) => tr = [pl]
    | (c, s, false) => exists tr', tr = pl :: tr' /\ yields (mkAll c s rest false) tr' None /\ inv c s rest
    end.
Proof.
  intros H Hi. inversion H as [? ? ? E|? pl s' E Ed|? pl s' tr' out E Ed Hy]; subst.
  - unfold all_next in E. cbn [a_done a_cur a_data a_stack] in E.
    destruct (parse cur data true) as [[[h|n pl1]|er] cur'] eqn:Ep; try discriminate.
    destruct (after_payload cur' st pl1) as [[c s1] d] eqn:Ea. injection E as <- <-. cbn in Ed. subst d.
    apply parse_sound in Ep as (e' & bs & rest & -> & -> & Hst & Hlim & Hend);
      [|eapply inv_fits; eauto|apply Hi|apply (chain_head _ _ (proj2 (proj2 Hi)))].
    exists pl1, bs, rest, cur'. rewrite Ea. destruct pl1; try (cbn in Ea; discriminate Ea).
    destruct (pstep_end _ _ _ _ _ Hst I) as (-> & ->). repeat split; auto. intros _. destruct (Hend eq_refl eq_refl) as [(-> & _)|X]; auto.
  - unfold all_next in E. cbn [a_done a_cur a_data a_stack] in E.
    destruct (parse cur data true) as [[[h|n pl1]|er] cur'] eqn:Ep; try discriminate.
    destruct (after_payload cur' st pl1) as [[c s1] d] eqn:Ea. injection E as <- <-. cbn in Ed. subst d.
    pose proof (inv_step _ _ _ _ _ _ _ _ Hi Ep Ea) as (Hi' & _).
    apply parse_sound in Ep as (e' & bs & rest & -> & -> & Hst & Hlim & Hend);
      [|eapply inv_fits; eauto|apply Hi|apply (chain_head _ _ (proj2 (proj2 Hi)))].
    rewrite skipn_zlen_app in *. exists pl1, bs, rest, cur'. rewrite Ea.
    assert (Hs : pstep true cur pl1 bs cur').
    { assert (is_end pl1 \/ ~ is_end pl1) as [X|X] by (destruct pl1; cbn; tauto).
      - destruct (pstep_end _ _ _ _ _ Hst X) as (-> & ->). exact Hst.
      - eapply pstep_flag; eauto. }
    repeat split; auto; [|exists tr'; auto].
    intros X. destruct (pstep_end _ _ _ _ _ Hs X) as (-> & _). destruct (pstep_end _ _ _ _ _ Hst X) as (_ & ->). destruct (Hend eq_refl eq_refl) as [(-> & _)|Y]; auto.
Qed.

(** * From [parse_all] to the document *)
Lemma empty_body_step p pl bs p' lx : pstep true p pl bs p' -> p_state p = SFunctionBody 0 lx -> lx = 0.
Proof.
  intros H Ex. pinv H; subst; clear H; try congruence;
    try (match goal with Ha : at_sections p _ |- _ => destruct Ha as [(X & _)|(X & _)]; rewrite Ex in X; congruence end).
Qed.
Lemma body_step p pl bs p' k lx : pstep true p pl bs p' -> p_state p = SFunctionBody k lx -> k <> 0 ->
  exists lenb body, pl = PCodeEntry (p_offset p + zlen lenb, p_offset p + zlen lenb + zlen body) body /\ bs = lenb ++ body /\
      uN 32 lenb (zlen body) /\ p' = moved (set_state p (SFunctionBody (k - 1) (lx - zlen (lenb ++ body)))) (lenb ++ body).
Proof.
  intros H Ex Hkz. pinv H; subst; clear H; try congruence;
    try (match goal with Ha : at_sections p _ |- _ => destruct Ha as [(X & _)|(X & _)]; rewrite Ex in X; congruence end).
  rewrite Ex in Es. injection Es as <- <-. exists lenb, body. auto.
Qed.
Lemma header_step p pl bs p' : pstep true p pl bs p' -> p_state p = SHeader ->
  exists num e rg, pl = PVersion num e rg /\ bs = header_of e /\ p_state p' = SSectionStart.
Proof.
  intros H Ex. pinv H; subst; clear H; try congruence;
    try (match goal with Ha : at_sections p _ |- _ => destruct Ha as [(X & _)|(X & _)]; rewrite Ex in X; congruence end).
  - do 3 eexists. split; [reflexivity|]. split; reflexivity.
  - do 3 eexists. split; [reflexivity|]. split; reflexivity.
Qed.
Lemma entries_read k : forall cur st data tr l, yields (mkAll cur st data false) tr None -> inv cur st data ->
  p_state cur = SFunctionBody (Z.of_nat k) l ->
  exists ebs rest ents tr', data = ebs ++ rest /\ tr = ents ++ tr' /\ zlen ents = Z.of_nat k /\ zlen ebs = l /\
    code_entries_at (p_offset cur) ebs ents /\ (ents = [] -> l = 0) /\
    yields (mkAll (set_state (set_offset cur (p_offset cur + l)) (SFunctionBody 0 0)) st rest false) tr' None /\
    inv (set_state (set_offset cur (p_offset cur + l)) (SFunctionBody 0 0)) st rest.
Proof.
  induction k as [|k IH]; intros cur st data tr l Hy Hi Esx.
  - assert (l = 0) as ->.
    { destruct (yields_step _ _ _ _ Hy Hi) as (pl & bs & rest & cur' & -> & Hst & _). eapply empty_body_step; eauto. }
    exists [], data, [], tr. rewrite Z.add_0_r. rewrite parser_eq by auto. repeat split; auto; try constructor; try apply Hi.
  - destruct (yields_step _ _ _ _ Hy Hi) as (pl & bs & rest & cur' & -> & Hst & Hlim & Hend & Hc).
    destruct (body_step _ _ _ _ _ _ Hst Esx ltac:(lia)) as (lenb & body & -> & -> & Hu & ->).
    replace (Z.of_nat (S k) - 1) with (Z.of_nat k) in * by lia.
    cbn [after_payload] in Hc. destruct Hc as (tr' & -> & Hy' & Hi').
    destruct (IH _ _ _ _ (l - zlen (lenb ++ body)) Hy' Hi' eq_refl) as (ebs & rest' & ents & tr2 & -> & -> & Hk & Hl & Hce & _ & Hy2 & Hi2).
    exists ((lenb ++ body) ++ ebs), rest', (PCodeEntry (p_offset cur + zlen lenb, p_offset cur + zlen lenb + zlen body) body :: ents), tr2.
    unfold moved in *. cbn [p_offset set_state set_offset] in *.
    assert (Ep : forall x, set_state (set_offset (set_offset (set_state cur x) (p_offset cur + zlen (lenb ++ body))) (p_offset cur + zlen (lenb ++ body) + (l - zlen (lenb ++ body)))) (SFunctionBody 0 0)
             = set_state (set_offset cur (p_offset cur + l)) (SFunctionBody 0 0)).
    { intros y. unfold set_state, set_offset. cbn. f_equal. lia. }
    rewrite Ep in Hy2, Hi2.
    repeat split; auto; try apply Hi2.
    + now rewrite !app_assoc.
    + rewrite zlen_cons. lia.
    + rewrite zlen_app. lia.
    + rewrite <- app_assoc. constructor; [exact Hu|]. rewrite zlen_app, Z.add_assoc in Hce. exact Hce.
    + discriminate.
Qed.

Lemma nested_is id q rg : nested (nested_payload id q rg).
Proof. unfold nested_payload. destruct (id =? 1); exact I. Qed.

(** What a step from the start of a section does. *)
Lemma step_cases p pl bs p' : pstep true p pl bs p' -> (exists q, at_sections p q) ->
  (exists id lenb c, bs = id :: lenb ++ c /\ uN 32 lenb (zlen c) /\ ~ nested pl /\ ~ is_code pl /\ ~ is_end pl /\
     as_section pl = Some (id, (p_offset p + 1 + zlen lenb, p_offset p + 1 + zlen lenb + zlen c)) /\ p_state p' = SSectionStart) \/
  (exists lenb cb count len, bs = 10 :: lenb ++ cb /\ uN 32 lenb len /\ uN 32 cb count /\ zlen cb <= len /\ p_offset p + 1 + zlen lenb + len <= max_off p /\
     pl = PCodeStart count (p_offset p + 1 + zlen lenb, p_offset p + 1 + zlen lenb + len) (len - zlen cb) /\ p_state p' = SFunctionBody count (len - zlen cb)) \/
  (exists id lenb len s, (id = 1 \/ id = 4) /\ bs = id :: lenb /\ uN 32 lenb len /\ s = p_offset p + 1 + zlen lenb /\ s + len <= max_off p /\
     pl = nested_payload id (child p s (s + len)) (s, s + len) /\ p_offset p' = s + len /\ p_state p' = SSectionStart) \/
  (bs = [] /\ pl = PEnd (p_offset p)).
Proof.
  intros H Ha0. pinv H; subst; clear H;
    try (match goal with Ha : at_sections p _ |- _ => pose proof (at_sections_facts _ _ Ha) as (Qc & Qo & Qe & Qf & Qm & Qft & Qs) end);
    try (match goal with Hh : header_at _ _ _ _ _ |- _ => destruct Hh as (Hi & Hlen & -> & Hm1 & Hm2) end).
  1,2: exfalso; destruct Ha0 as (q0 & Ha0); destruct Ha0 as [(X & _)|(X & _)]; congruence.
  all: try (left; eexists _, _, _; split; [reflexivity|]; split; [eassumption|]; repeat split; try exact (fun x => x); unfold moved; cbn; auto; fail).
  - right. left. exists lenb, cb, count, len. repeat split; auto.
  - exfalso. destruct Ha0 as (q0 & Ha0). destruct Ha0 as [(X & _)|(X & _)]; rewrite Es in X; [congruence|]. injection X as -> _. congruence.
  - right. right. left. exists id, lenb, len, (p_offset p + 1 + zlen lenb). repeat split; auto.
  - right. right. right. auto.
Qed.

Theorem document_read k : forall cur st data tr, (List.length tr <= k)%nat ->
  yields (mkAll cur st data false) tr None -> inv cur st data -> unlimited cur st -> (exists q, at_sections cur q) ->
  exists items tr1 bs cur' cur'' tr2 rest, tr = tr1 ++ PEnd (p_offset cur') :: tr2 /\ data = bs ++ rest /\
    holds false cur items tr1 bs cur' /\ pstep true cur' (PEnd (p_offset cur')) [] cur'' /\
    (rest = [] \/ (p_offset cur' = max_off cur /\ p_offset cur' = p_offset cur + zlen bs)) /\ p_offset cur' <= max_off cur /\
    match st with [] => tr2 = [] /\ rest = [] | q :: st' => yields (mkAll q st' rest false) tr2 None /\ inv q st' rest /\ unlimited q st' end.
Proof.
  induction k as [|k IH]; intros cur st data tr Hk Hy Hi Hu Hat.
  { destruct (yields_step _ _ _ _ Hy Hi) as (pl & bs & rest & cur' & -> & Hst & Hlim & Hend & Hc).
    destruct (after_payload cur' st pl) as [[c s] [|]]; [subst tr|destruct Hc as (tr' & -> & _)]; cbn in Hk; lia. }
  destruct (yields_step _ _ _ _ Hy Hi) as (pl & bs & rest & cur' & -> & Hst & Hlim & Hend & Hc).
  pose proof (pstep_frame _ _ _ _ _ Hst) as (Fm & Fo & _).
  assert (Hun : forall c, p_max_offset c = p_max_offset cur -> unlimited c st) by (intros c Ec; destruct st; cbn in *; congruence).
  assert (Hmo : max_off cur' = max_off cur) by (unfold max_off; now rewrite Fm).
  destruct (step_cases _ _ _ _ Hst Hat) as [(id & lenb & c & -> & Hlen & Hnn & Hnc & Hne & Has & Es)|[(lenb & cb & count & len & -> & Hlen & Hcb & Hle & Hmx & -> & Es)
    |[(id & lenb & len & s & Hid & -> & Hlen & Hs & Hmx & -> & Ho & Es)|(-> & ->)]]].
  - assert (after_payload cur' st pl = (cur', st, false)) as Ea by (destruct pl; cbn in *; tauto || reflexivity).
    rewrite Ea in Hc. destruct Hc as (tr' & -> & Hy' & Hi'). cbn in Hk.
    destruct (IH _ _ _ tr' ltac:(lia) Hy' Hi' (Hun _ Fm)) as (items & tr1 & bs2 & c2 & c3 & tr2 & rest2 & -> & -> & Hh & He & Hr & Hb & Hm).
    { exists cur'. left. auto. }
    exists (Sec id c :: items), (pl :: tr1), ((id :: lenb ++ c) ++ bs2), c2, c3, tr2, rest2. rewrite Hmo in Hr, Hb. specialize (Fo Hnn).
    split; [reflexivity|]. split; [now rewrite !app_assoc|]. split; [econstructor; eauto|]. split; [exact He|]. split; [|split; [exact Hb|exact Hm]].
    destruct Hr as [Hr|(Hr & Hr')]; [auto|]. right. split; [auto|]. rewrite zlen_app. lia.
  - cbn [after_payload] in Hc. destruct Hc as (tr' & -> & Hy' & Hi'). cbn in Hk. pose proof (uN_range _ _ _ Hcb) as Hcr.
    destruct (entries_read (Z.to_nat count) _ _ _ _ (len - zlen cb) Hy' Hi') as (ebs & rest' & ents & tr2 & -> & -> & Hn & Hl & Hce & _ & Hy2 & Hi2).
    { rewrite Z2Nat.id by lia. exact Es. }
    rewrite Z2Nat.id in Hn by lia. rewrite app_length in Hk.
    set (cm := set_state (set_offset cur' (p_offset cur' + (len - zlen cb))) (SFunctionBody 0 0)) in *.
    destruct (IH cm _ _ tr2 ltac:(lia) Hy2 Hi2 (Hun cm Fm)) as (items & tr1 & bs2 & c2 & c3 & tr3 & rest2 & -> & -> & Hh & He & Hr & Hb & Hm).
    { exists (set_state cm SSectionStart). right. auto. }
    specialize (Fo (fun x => x)).
    assert (El : len = zlen (cb ++ ebs)) by (rewrite zlen_app; lia). subst count.
    exists (Sec 10 (cb ++ ebs) :: items). rewrite <- Hl in *. rewrite El in Hst, Hmx, Hlen. rewrite El.
    eexists (_ :: ents ++ tr1), ((10 :: lenb ++ cb ++ ebs) ++ bs2), c2, c3, tr3, rest2.
    split; [cbn; rewrite <- app_assoc; reflexivity|]. split; [cbn; now rewrite <- !app_assoc|].
    split; [|split; [exact He|split; [|split; [rewrite <- Hmo; exact Hb|exact Hm]]]].
    + eapply ho_code; eauto; [|subst cm; rewrite <- Hl in Hh; exact Hh]. rewrite Fo, zlen_cons, zlen_app. rewrite zlen_app in Hmx. lia.
    + destruct Hr as [Hr|(Hr & Hr')]; [auto|]. right. split; [rewrite Hr; exact Hmo|]. rewrite Hr'. subst cm. cbn [p_offset set_state set_offset].
      rewrite !zlen_app, !zlen_cons, !zlen_app in *. lia.
  - assert (after_payload cur' st (nested_payload id (child cur s (s + len)) (s, s + len)) = (child cur s (s + len), cur' :: st, false)) as Ea by (unfold nested_payload; destruct (id =? 1); reflexivity).
    rewrite Ea in Hc. destruct Hc as (tr' & -> & Hy' & Hi'). cbn in Hk.
    destruct (yields_step _ _ _ _ Hy' Hi') as (pl2 & bs2 & rest2 & c1 & -> & Hst2 & Hlim2 & _ & Hc2).
    destruct (header_step _ _ _ _ Hst2 eq_refl) as (num & e & rg & -> & -> & Es2).
    cbn [after_payload] in Hc2. destruct Hc2 as (tr3 & -> & Hy3 & Hi3). cbn in Hk.
    pose proof (pstep_frame _ _ _ _ _ Hst2) as (Fm2 & Fo2 & _). specialize (Fo2 (fun x => x)). cbn [child p_offset p_max_offset] in Fo2, Fm2.
    destruct (IH c1 (cur' :: st) _ tr3 ltac:(lia) Hy3 Hi3) as (sub & tr1 & bs1 & c2 & c3 & tr4 & rest3 & -> & -> & Hh & He & Hr & Hb & Hy4 & Hi4 & Hu4).
    { cbn [unlimited]. auto. }
    { exists c1. left. auto. }
    rewrite app_length in Hk. cbn in Hk.
    destruct (IH cur' st _ tr4 ltac:(lia) Hy4 Hi4 (Hun _ Fm)) as (items & tr5 & bs3 & d2 & d3 & tr6 & rest4 & -> & -> & Hh2 & He2 & Hr2 & Hb2 & Hm2).
    { exists cur'. left. auto. }
    assert (Hh8 : zlen (header_of e) = 8) by (destruct e; reflexivity).
    assert (Hm8 : max_off (child cur s (s + len)) = s + len) by reflexivity.
    assert (Hmc : max_off c1 = s + len) by (unfold max_off; now rewrite Fm2).
    rewrite Hh8 in Fo2. cbn [child p_offset] in Hlim2. rewrite Hm8, Hh8 in Hlim2.
    pose proof (proj1 (holds_offset _ _ _ _ _ _ Hh)) as Hob. rewrite Fo2 in Hob.
    pose proof (holds_frame _ _ _ _ _ _ Hh) as Hof.
    exists (Sub id e sub :: items), (nested_payload id (child cur s (s + len)) (s, s + len) :: PVersion num e rg :: tr1 ++ PEnd (p_offset c2) :: tr5),
      ((id :: lenb) ++ header_of e ++ bs1 ++ bs3), d2, d3, tr6, rest4.
    split; [cbn; rewrite <- app_assoc; reflexivity|]. split; [now rewrite <- !app_assoc|].
    split; [|split; [exact He2|split; [|split; [rewrite <- Hmo; exact Hb2|exact Hm2]]]].
    + eapply ho_sub; eauto; try lia.
      destruct Hr as [Hr|(Hr & Hr')].
      * apply app_eq_nil in Hr as (-> & ->). right. repeat split; auto. rewrite Hmc in Hb. lia.
      * left. lia.
    + destruct Hr2 as [Hr2|(Hr2 & Hr2')]; [auto|].
      destruct Hr as [Hr|(Hr & Hr')]; [apply app_eq_nil in Hr as (-> & ->); auto|].
      right. split; [rewrite Hr2; exact Hmo|]. rewrite !zlen_app, !zlen_cons, Hh8. lia.
  - cbn [after_payload] in Hc. rewrite zlen_nil, Z.add_0_r in Hlim. specialize (Hend I). exists [], [], [], cur, cur'. rewrite zlen_nil, Z.add_0_r. cbn [app].
    assert (Hend' : rest = [] \/ p_offset cur = max_off cur /\ p_offset cur = p_offset cur) by (destruct Hend; auto).
    destruct st as [|q st'].
    + subst tr. exists [], rest. repeat split; auto; try constructor.
      destruct Hend as [X|X]; [exact X|]. destruct Hi as (Hle & _ & _). cbn in Hu. unfold max_off in X. rewrite Hu in X. cbn [app] in Hle. apply zlen_zero. lia.
    + destruct Hc as (tr' & -> & Hy' & Hi'). exists tr', rest. repeat split; auto; try constructor; try apply Hi'.

Qed.
