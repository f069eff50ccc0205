(** The rewriting as a whole: the output is the document with its metadata edited and some appended. *)
From Verif.Base Require Import Prelude Utf8.
From Verif.Reader Require Import Model Spec Mono.
From Verif.Leb Require Import Spec Model Proofs ReaderProofs Top.
From Verif.Encoder Require Import Model.
From Verif.Parser Require Import Model Proofs Spec Stream Shape Chunks Complete Tiling Module Forward Encoded.
From Verif.Meta Require Import Model Spec Doc DocWrite DocCanon RewriteProofs.
From Coq Require Import Lia.

(** * The loop at the top *)
Section Top.
Context (tp : text_parsers) (m : add_metadata) (add : producers).
Definition Rd (name d : list Z) (r : option (list Z)) : Prop := data_effect tp m add name d = Some r.

Lemma not_metadata_other id c : id <> 0 -> forall name, ~ metadata name (Sec id c).
Proof. intros H name (_ & d & c' & E & _). congruence. Qed.
Lemma not_metadata_sub id e l name : ~ metadata name (Sub id e l).
Proof. intros (_ & d & c' & E & _). congruence. Qed.
Lemma not_metadata_custom name d c : ~ In name metadata_names -> custom name d c -> forall name', ~ metadata name' (Sec 0 c).
Proof. intros H Hc name' (Hi & d' & c' & E & Hc'). injection E as <-. destruct (custom_fun _ _ _ _ _ Hc Hc') as (-> & _). contradiction. Qed.

Definition flags (b1 b2 : bool) (items : list item) (s : rw) : Prop :=
  (rw_producers s = true <-> b1 = true \/ has_producers items) /\ (rw_names s = true <-> b2 = true \/ has_names items).
Lemma flags_skip b1 b2 i items s : (forall c, i <> Sec 0 c) -> flags b1 b2 items s -> flags b1 b2 (i :: items) s.
Proof.
  intros Hi (H1 & H2). split; [rewrite H1|rewrite H2]; apply or_iff_compat_l; unfold has_producers, has_names; split; intros (d & c & Hin & Hc); exists d, c; (split; [|exact Hc]).
  1,3: right; exact Hin.
  all: destruct Hin as [E|E]; [exfalso; eapply Hi; exact E|exact E].
Qed.
Lemma flags_custom b1 b2 name d c items s : custom name d c -> flags (b1 || is_producers name d) (b2 || is_names name) items s -> flags b1 b2 (Sec 0 c :: items) s.
Proof.
  intros Hc (H1 & H2). split; [rewrite H1|rewrite H2]; rewrite orb_true_iff, or_assoc; apply or_iff_compat_l.
  - unfold is_producers. rewrite andb_true_iff, same_eq. unfold has_producers. split.
    + intros [(-> & Hk)|(d' & c' & Hin & X)]; [exists d, c; split; [left; reflexivity|auto]|exists d', c'; split; [right; exact Hin|exact X]].
    + intros (d' & c' & [E|Hin] & Hc' & Hk); [injection E as <-; destruct (custom_fun _ _ _ _ _ Hc Hc') as (-> & ->); auto|right; eauto].
  - unfold is_names. rewrite orb_true_iff, !same_eq. unfold has_names. split.
    + intros [X|(d' & c' & Hin & X)]; [exists d, c; split; [left; reflexivity|destruct X as [-> | ->]; auto]|exists d', c'; split; [right; exact Hin|exact X]].
    + intros (d' & c' & [E|Hin] & Hc'); [injection E as <-; left; destruct Hc' as [Hc'|Hc']; destruct (custom_fun _ _ _ _ _ Hc Hc') as (-> & _); auto|right; eauto].
Qed.

Theorem loop_top x p items tr bs p' : holds x p items tr bs p' -> forall data pre post s k s', data = pre ++ bs ++ post -> p_offset p = zlen pre ->
  rw_stack s = [] -> rewrite_loop tp m add data s (tr ++ k) = Some s' ->
  exists items' cb s1, edited Rd items items' /\ canon items' cb /\ rw_stack s1 = [] /\ rw_out s1 = rw_out s ++ cb /\
    flags (rw_producers s) (rw_names s) items s1 /\ rewrite_loop tp m add data s1 k = Some s'.
Proof.
  induction 1 as [p|p pl id lenb c p1 items tr bs p' Hst Hu Has Hn Hc Hl H IH|p lenb cb ents ebs p1 items tr bs p' Hst Hu Hce Hl H IH
    |p id lenb len s p1 num e rg c1 sub tr1 bs1 c2 c3 items tr2 bs2 p' Hid Hs Hu Hst Ho Hlim Hv H8 H1 IH1 He Hx H2 IH2]; intros data pre post st k s' Ed Ep Hstk E.
  - exists [], [], st. rewrite app_nil_r. split; [constructor|]. split; [constructor|]. split; [exact Hstk|]. split; [reflexivity|]. split; [|exact E].
    split; (split; [auto|intros [X|(d & c & [] & _)]; exact X]).
  - rewrite <- app_assoc in Ed. pose proof (pstep_frame _ _ _ _ _ Hst) as (_ & Fo & _). specialize (Fo Hn).
    pose proof (conj Hst (conj Hu (conj Has (conj Hn Hc))) : section_step p pl id lenb c p1) as Hss.
    assert (Hnext : forall s0, rw_stack s0 = [] -> rewrite_loop tp m add data s0 (tr ++ k) = Some s' ->
      exists items' cb s1, edited Rd items items' /\ canon items' cb /\ rw_stack s1 = [] /\ rw_out s1 = rw_out s0 ++ cb /\
        flags (rw_producers s0) (rw_names s0) items s1 /\ rewrite_loop tp m add data s1 k = Some s').
    { intros s0 Hs0 E0. eapply (IH data (pre ++ (id :: lenb ++ c)) post s0); auto; [rewrite Ed; lst|rewrite zlen_app; lia]. }
    destruct (Z.eq_dec id 0) as [->|Hid].
    + destruct (section_zero _ _ _ _ _ Hss) as (rg & name & d & -> & Hcu & _).
      cbn [app rewrite_loop rewrite_payload] in E. rewrite Hstk in E.
      destruct (rewrite_custom tp m add st name d) as [r|] eqn:Er; [|discriminate]. pose proof (rewrite_custom_effect _ _ _ _ _ _ _ Er) as Hr.
      destruct r as [s1|].
      * destruct Hr as (Hin & Hs1 & Hf1 & Hf2 & Hr). rewrite Hstk in Hs1. destruct (Hnext s1 Hs1 E) as (items' & cb & s2 & He & Hca & Hs2 & Ho2 & Hf & E2).
        rewrite Hf1, Hf2 in Hf. pose proof (flags_custom _ _ _ _ _ _ _ Hcu Hf) as Hf'.
        destruct Hr as [(Hr & Hout)|(d' & c' & b & Hr & Eb & Hcu' & Hout)].
        -- exists items', cb, s2. rewrite <- Hout. split; [eapply ed_gone; eauto|]. auto 6.
        -- exists (Sec 0 c' :: items'), ((0 :: b) ++ cb), s2. split; [eapply ed_metadata; eauto|]. split; [constructor; assumption|].
           split; [exact Hs2|]. split; [rewrite Ho2, Hout; now rewrite <- app_assoc|auto].
      * destruct Hr as (Hr & Hf1 & Hf2). unfold pass in E. rewrite Has, (section_slice _ _ _ _ _ _ data pre (bs ++ post) Hss Ed Ep) in E. unfold module_section in E.
        destruct (encode_bytes c) as [b|] eqn:Eb; [|discriminate]. cbn [option_map] in E.
        destruct (Hnext (emit st (0 :: b)) Hstk E) as (items' & cb & s2 & He & Hca & Hs2 & Ho2 & Hf & E2).
        exists (Sec 0 c :: items'), ((0 :: b) ++ cb), s2. split.
        { destruct (in_dec (list_eq_dec Z.eq_dec) name metadata_names) as [Hi|Hi]; [eapply ed_metadata; eauto|apply ed_other; [eapply not_metadata_custom; eauto|exact He]]. }
        split; [constructor; assumption|]. split; [exact Hs2|]. split; [rewrite Ho2; unfold emit; cbn [rw_out]; now rewrite <- app_assoc|]. split; [|exact E2].
        eapply flags_custom; [exact Hcu|]. rewrite Hf1, Hf2, !orb_false_r. exact Hf.
    + assert (Hnc : rw_stack st <> [] \/ forall rg b name d, pl <> PCustom rg b name d).
      { right. intros rg bb name d ->. apply Hid. eapply section_custom. exact Hss. }
      destruct (pass_section _ _ _ _ _ _ _ _ _ _ _ _ _ _ _ Hss Ed Ep Hnc E) as (b & Eb & E').
      destruct (Hnext (emit st (id :: b)) Hstk E') as (items' & cb & s2 & He & Hca & Hs2 & Ho2 & Hf & E2).
      exists (Sec id c :: items'), ((id :: b) ++ cb), s2. split; [apply ed_other; [apply not_metadata_other; exact Hid|exact He]|].
      split; [constructor; assumption|]. split; [exact Hs2|]. split; [rewrite Ho2; unfold emit; cbn [rw_out]; now rewrite <- app_assoc|]. split; [|exact E2].
      apply flags_skip; [congruence|exact Hf].
  - rewrite <- app_assoc in Ed. rewrite <- app_comm_cons, <- app_assoc in E.
    destruct (pass_code _ _ _ _ _ _ _ _ _ _ _ _ _ _ _ Ed Ep E) as (b & Eb & E'). rewrite (code_pass _ _ _ _ _ _ _ Hce) in E'.
    pose proof (pstep_frame _ _ _ _ _ Hst) as (_ & Fo & _). specialize (Fo (fun x => x)). rewrite zlen_cons, zlen_app in Fo.
    destruct (IH data (pre ++ (10 :: lenb ++ cb ++ ebs)) post (emit st (10 :: b)) k s' ltac:(rewrite Ed; lst)
       ltac:(cbn [p_offset set_state set_offset]; rewrite !zlen_app, zlen_cons, !zlen_app; lia) Hstk E') as (items' & cb2 & s2 & He & Hca & Hs2 & Ho2 & Hf & E2).
    exists (Sec 10 (cb ++ ebs) :: items'), ((10 :: b) ++ cb2), s2. split; [apply ed_other; [apply not_metadata_other; lia|exact He]|].
    split; [constructor; assumption|]. split; [exact Hs2|]. split; [rewrite Ho2; unfold emit; cbn [rw_out]; now rewrite <- app_assoc|]. split; [|exact E2].
    apply flags_skip; [congruence|exact Hf].
  - assert (Hh : zlen (header_of e) = 8) by (destruct e; reflexivity).
    cbn [app] in E. rewrite loop_nested_start, <- app_assoc in E. cbn [app] in E.
    pose proof (pstep_frame _ _ _ _ _ Hv) as (_ & Fo & _). specialize (Fo (fun x => x)). cbn [child p_offset] in Fo.
    destruct (loop_nested _ _ _ _ _ _ H1 tp m add data (pre ++ (id :: lenb) ++ header_of e) (bs2 ++ post) (mkRw (rw_producers st) (rw_names st) (rw_out st :: rw_stack st) (header_of e)) _ _ ltac:(rewrite Ed; lst)
       ltac:(rewrite !zlen_app, zlen_cons; lia) ltac:(discriminate) E) as (cb1 & Hca1 & E1).
    unfold emit in E1. cbn [rw_producers rw_names rw_stack rw_out] in E1.
    apply loop_nested_end in E1 as (eb & Eeb & E1).
    set (st1 := mkRw (rw_producers st) (rw_names st) (rw_stack st) (rw_out st ++ kind e :: eb)) in *.
    assert (exists items' cb s1, edited Rd items items' /\ canon items' cb /\ rw_stack s1 = [] /\ rw_out s1 = rw_out st1 ++ cb /\
      flags (rw_producers st1) (rw_names st1) items s1 /\ rewrite_loop tp m add data s1 k = Some s') as (items' & cb & s2 & Hed & Hca & Hs2 & Ho2 & Hf & E2).
    { destruct Hx as [Hx|(_ & -> & Hx)].
      - eapply (IH2 data (pre ++ (id :: lenb) ++ header_of e ++ bs1) post); [rewrite Ed; lst|rewrite !zlen_app, zlen_cons; lia|exact Hstk|exact E1].
      - destruct (holds_nil _ _ _ _ _ _ H2 eq_refl) as (-> & -> & _). exists [], [], st1. rewrite app_nil_r. split; [constructor|]. split; [constructor|]. split; [exact Hstk|]. split; [reflexivity|]. split; [|exact E1].
        split; (split; [auto|intros [X|(d & c & [] & _)]; exact X]). }
    exists (Sub id e sub :: items'), ((kind e :: eb) ++ cb), s2. split; [apply ed_other; [apply not_metadata_sub|exact Hed]|].
    split; [econstructor; eassumption|]. split; [exact Hs2|]. split; [rewrite Ho2; subst st1; cbn [rw_out]; now rewrite <- app_assoc|]. split; [|exact E2].
    apply flags_skip; [congruence|exact Hf].
Qed.
End Top.

(** * The edited document is accepted *)
Lemma sim_skip p pl lenb c p1 p2 : section_step p pl 0 lenb c p1 -> sim p p2 -> sim p1 p2.
Proof.
  intros Hss [S1 S2 S3 S4 S5 S6]. destruct (section_zero _ _ _ _ _ Hss) as (rg & name & d & -> & _). destruct Hss as (Hst & _).
  assert (exists q n, at_sections p q /\ 0 <= n /\ p1 = set_offset q (p_offset q + n)) as (q & n & Ha & Hn & ->).
  { clear - Hst. inversion Hst as [| |q lenb' s nb name' data Ha Hh Hu Hl Hv| | | | | | | |qn idn lenbn lenn sn Han Hen Hidn Hhn Hmxn Epl| |]; subst.
    - exists q. eexists. split; [exact Ha|]. split; [|reflexivity]. apply zlen_nonneg.
    - exfalso. intuition lia. }
  pose proof (at_sections_facts _ _ Ha) as (Q1 & Q2 & Q3 & Q4 & Q5 & Q6 & Q7).
  constructor; cbn [p_state p_offset p_enc p_counts p_order set_offset]; try congruence.
  - eexists. left. split; [exact Q7|reflexivity].
  - rewrite Q2. lia.
Qed.
Lemma custom_step p2 name d c l2 : (exists q, at_sections p2 q) -> zlen name <= MAX_WASM_STRING_SIZE -> utf8_valid name = true -> custom name d c -> uN 32 l2 (zlen c) ->
  p_offset p2 + 1 + zlen l2 + zlen c <= max_off p2 -> max_off p2 <= U64MAX ->
  exists pl p3, section_step p2 pl 0 l2 c p3 /\ forall p, sim p p2 -> sim p p3.
Proof.
  intros (q & Ha) Hl Hv (nb & Hu & ->) Hu2 Hfit Hmax. pose proof (at_sections_facts _ _ Ha) as (Q1 & Q2 & Q3 & Q4 & Q5 & Q6 & Q7).
  eexists _, _. split.
  - split; [apply (ps_custom true p2 q l2 (p_offset p2 + 1 + zlen l2) nb name d); auto; repeat split; auto; lia|].
    split; [exact Hu2|]. split; [reflexivity|]. split; exact (fun x => x).
  - intros p [S1 S2 S3 S4 S5 S6]. constructor; unfold moved; cbn [p_state p_offset p_enc p_counts p_order set_offset]; try congruence.
    eexists. left. split; [exact Q7|reflexivity].
Qed.

Lemma holds_app x p a tr bs p1 : holds x p a tr bs p1 -> x = true -> forall b tr2 bs2 p2, holds x p1 b tr2 bs2 p2 -> holds x p (a ++ b) (tr ++ tr2) (bs ++ bs2) p2.
Proof.
  induction 1 as [p|p pl id lenb c p1 items tr bs p' Hst Hu Has Hn Hc Hl H IH|p lenb cb ents ebs p1 items tr bs p' Hst Hu Hce Hl H IH
    |p id lenb len s p1 num e rg c1 sub tr1 bs1 c2 c3 items tr2 bs2 p' Hid Hs Hu Hst Ho Hlim Hv H8 H1 IH1 He Hx H2 IH2]; intros Ex b trb bsb p2 Hb.
  - exact Hb.
  - rewrite <- app_assoc. cbn [app]. rewrite app_comm_cons. eapply ho_sec; eauto.
  - rewrite <- app_assoc. cbn [app]. rewrite <- app_assoc, app_comm_cons. eapply ho_code; eauto.
  - repeat rewrite <- app_assoc. cbn [app]. rewrite <- app_assoc. cbn [app]. rewrite app_comm_cons. eapply ho_sub; eauto.
    destruct Hx as [Hx|(X & _)]; [auto|congruence].
Qed.

Theorem edited_holds x p items tr bs p' : holds x p items tr bs p' -> Forall well_kinded items -> forall R items' p2 cb,
  edited R items items' -> sim p p2 -> canon items' cb -> p_offset p2 + zlen cb <= max_off p2 -> max_off p2 <= U64MAX ->
  exists tr2 p3, holds true p2 items' tr2 cb p3 /\ sim p' p3.
Proof.
  induction 1 as [p|p pl id lenb c p1 items tr bs p' Hst Hu Has Hn Hc Hl H IH|p lenb cb ents ebs p1 items tr bs p' Hst Hu Hce Hl H IH
    |p id lenb len s p1 num e rg c1 sub tr1 bs1 c2 c3 items tr2 bs2 p' Hid Hs Hu Hst Ho Hlim Hv H8 H1 IH1 He Hx H2 IH2]; intros Hwk R items' p2 cbs Hed Hsim Hca Hfit Hmax.
  - inversion Hed; subst. inversion Hca; subst. exists [], p2. split; [constructor|exact Hsim].
  - apply Forall_cons_iff in Hwk as (_ & Hwk).
    pose proof (conj Hst (conj Hu (conj Has (conj Hn Hc))) : section_step p pl id lenb c p1) as Hss.
    assert (Hnext : forall after b l2 bs' c' pl' p3, section_step p2 pl' id l2 c' p3 -> b = l2 ++ c' -> sim p1 p3 -> edited R items after -> canon after bs' ->
       cbs = (id :: b) ++ bs' -> exists tr2 p4, holds true p2 (Sec id c' :: after) tr2 cbs p4 /\ sim p' p4).
    { intros after b l2 bs' c' pl' p3 (S1 & S2 & S3 & S4 & S5) -> Hsim3 Hed' Hca' ->.
      rewrite zlen_app, zlen_cons, zlen_app in Hfit. pose proof (zlen_nonneg bs') as Zb.
      pose proof (pstep_frame _ _ _ _ _ S1) as (Fm & Fo & _). specialize (Fo S4). rewrite zlen_cons, zlen_app in Fo.
      destruct (IH Hwk R after p3 bs' Hed' Hsim3 Hca') as (tr3 & p4 & Hh & Hsim4).
      { unfold max_off in *. rewrite Fm. lia. }
      { unfold max_off in *. rewrite Fm. exact Hmax. }
      exists (pl' :: tr3), p4. split; [|exact Hsim4]. rewrite app_comm_cons. eapply ho_sec; eauto. rewrite zlen_cons, zlen_app. lia. }
    inversion Hed as [|i before after Hno Hed'|name d c0 d' c' before after Hin Hc1 Hc2 HR Hed' E1 E2|name d c0 before after Hin Hc1 HR Hed' E1 E2]; subst.
    + inversion Hca as [|id' c' b items' bs' Eb Hca'|]; subst. destruct (encode_bytes_inv _ _ Eb) as (l2 & -> & Hu2 & _).
      pose proof (zlen_nonneg bs') as Zb.
      destruct (sim_section _ _ _ _ _ _ p2 l2 Hss Hsim Hu2) as (pl' & p3 & Hss3 & Hsim3 & _); [rewrite zlen_app, zlen_cons, zlen_app in Hfit; lia|exact Hmax|].
      eapply Hnext; eauto.
    + inversion Hca as [|id' c'' b items' bs' Eb Hca'|]; subst. destruct (encode_bytes_inv _ _ Eb) as (l2 & -> & Hu2 & _).
      pose proof (zlen_nonneg bs') as Zb. destruct (metadata_name_ok _ Hin) as (N1 & N2 & _).
      destruct (custom_step p2 name d' c' l2 (sm_at2 _ _ Hsim) N1 N2 Hc2 Hu2) as (pl' & p3 & Hss3 & Hsim3); [rewrite zlen_app, zlen_cons, zlen_app in Hfit; lia|exact Hmax|].
      eapply Hnext; eauto. eapply sim_skip; eauto.
    + eapply IH; eauto. eapply sim_skip; eauto.
  - apply Forall_cons_iff in Hwk as (_ & Hwk).
    inversion Hed as [|i before after Hno Hed'| |]; subst. inversion Hca as [|id' c' b items' bs' Eb Hca'|]; subst.
    destruct (encode_bytes_inv _ _ Eb) as (l2 & -> & Hu2 & _).
    rewrite zlen_app, zlen_cons, zlen_app in Hfit. pose proof (zlen_nonneg bs') as Zb. pose proof (zlen_nonneg ebs) as Ze.
    destruct (sim_code _ _ _ _ _ _ p2 l2 _ _ Hst Hu Hsim Hu2 Ze) as (p3 & S1 & Hsim3); [rewrite zlen_app; lia|lia|exact Hmax|].
    pose proof (pstep_frame _ _ _ _ _ S1) as (Fm & Fo & _). specialize (Fo (fun x => x)). rewrite zlen_cons, zlen_app in Fo.
    destruct (entries_move _ _ _ Hce (p_offset p3)) as (ents2 & Hce2 & Ez).
    destruct (IH Hwk R after (after_code p3 (zlen ebs)) bs' Hed' Hsim3 Hca') as (tr3 & p4 & Hh & Hsim4).
    { unfold max_off in *. cbn. rewrite Fm. rewrite zlen_app in Hfit. lia. }
    { unfold max_off in *. cbn. rewrite Fm. exact Hmax. }
    rewrite <- Ez in S1. eexists _, p4. split; [|exact Hsim4].
    rewrite app_comm_cons. eapply ho_code; eauto. rewrite zlen_app in Hfit. lia.
  - apply Forall_cons_iff in Hwk as (Hwk1 & Hwk). inversion Hed as [|i before after Hno Hed'| |]; subst.
    inversion Hca as [| |id' e' sub' bs1' b items' bs' Hca1 Eb Hca']; subst.
    destruct (encode_bytes_inv _ _ Eb) as (l2 & -> & Hu2 & Hmin). assert (Hh8 : zlen (header_of e) = 8) by (destruct e; reflexivity).
    (* the nested part alone, then what follows *)
    pose proof (zlen_nonneg bs') as Zb.
    assert (Hone : canon [Sub id e sub] ((kind e :: l2 ++ header_of e ++ bs1') ++ [])) by (econstructor; eauto; constructor).
    assert (Hold : holds x p [Sub id e sub] (nested_payload id (child p (p_offset p + 1 + zlen lenb) (p_offset p + 1 + zlen lenb + len)) (p_offset p + 1 + zlen lenb, p_offset p + 1 + zlen lenb + len) :: PVersion num e rg :: tr1 ++ PEnd (p_offset c2) :: [])
       ((id :: lenb) ++ header_of e ++ bs1 ++ []) p1).
    { eapply ho_sub; eauto; [|constructor]. destruct Hx as [Hx|(X1 & X2 & X3)]; [auto|right; auto]. }
    destruct (rewritten _ _ _ _ _ _ Hold (Forall_cons _ Hwk1 (Forall_nil _)) p2 _ Hsim Hone) as (_ & tr3 & p3 & Hh & Hsim3); [rewrite app_nil_r; rewrite zlen_app in Hfit; lia|exact Hmax|].
    pose proof (holds_frame _ _ _ _ _ _ Hh) as Fm. pose proof (proj2 (holds_offset _ _ _ _ _ _ Hh) eq_refl) as Fo. rewrite app_nil_r in Fo.
    destruct (IH2 Hwk R after p3 bs' Hed' Hsim3 Hca') as (tr4 & p4 & Hh4 & Hsim4).
    { unfold max_off in *. rewrite Fm. rewrite zlen_app in Hfit. lia. }
    { unfold max_off in *. rewrite Fm. exact Hmax. }
    exists (tr3 ++ tr4), p4. split; [|exact Hsim4]. rewrite app_nil_r in Hh.
    exact (holds_app _ _ _ _ _ _ Hh eq_refl _ _ _ _ Hh4).
Qed.
