(** Documents written again with shortest lengths read back as the same documents. *)
From Verif.Base Require Import Prelude Utf8.
From Verif.Reader Require Import Model Spec Mono.
From Verif.Leb Require Import Spec Model Proofs ReaderProofs Top.
From Verif.Encoder Require Import Model.
From Verif.Parser Require Import Model Proofs Spec Stream Shape Chunks Complete Tiling Module Forward Encoded.
From Verif.Meta Require Import Model Spec Doc.
From Coq Require Import Lia.

(** * Runs of the parser are deliveries of [parse_all] *)
Lemma end_at_limit p off p' data : fits p data -> p_offset p = max_off p -> pstep true p (PEnd off) [] p' ->
  parse p data true = (Ok (Parsed 0 (PEnd off)), p').
Proof.
  intros Hf Hm Hst. destruct data as [|b data]; [apply parse_complete_end; assumption|].
  rewrite (parse_eff _ _ _ Hf). unfold eff. rewrite <- Hm, Z.sub_diag, zlen_cons. destruct (Z.ltb_spec 0 (1 + zlen data)); [|pose proof (zlen_nonneg data); lia].
  cbn [fst snd Z.to_nat firstn].
  destruct (pstep_delivers _ _ _ _ _ [] Hst (Forall_nil _) (fun _ => eq_refl)) as (p1 & E1 & ->).
  cbn [app] in E1. unfold new_reader. rewrite E1. reflexivity.
Qed.
Lemma step_yields cur st bs rest pl cur' c s : inv cur st (bs ++ rest) -> pstep true cur pl bs cur' -> ~ is_end pl -> p_offset cur + zlen bs <= max_off cur ->
  after_payload cur' st pl = (c, s, false) ->
  inv c s rest /\ forall tr out, yields (mkAll c s rest false) tr out -> yields (mkAll cur st (bs ++ rest) false) (pl :: tr) out.
Proof.
  intros Hi Hst Hne Hlim Ea. pose proof (parse_complete _ _ _ rest _ true (inv_fits _ _ _ Hi) (proj1 (proj2 Hi)) Hlim Hne Hst) as Ep.
  pose proof (inv_step _ _ _ _ _ _ _ _ Hi Ep Ea) as [Hi1 _]. rewrite skipn_zlen_app in Hi1. split; [exact Hi1|].
  intros tr out Hy. eapply (yields_item _ pl (mkAll c s rest false)); [|reflexivity|exact Hy].
  unfold all_next. cbn [a_done a_cur a_data a_stack]. rewrite Ep, Ea, skipn_zlen_app. reflexivity.
Qed.
Lemma end_yields cur q st rest cur' : inv cur (q :: st) rest -> pstep true cur (PEnd (p_offset cur)) [] cur' -> p_offset cur = max_off cur ->
  inv q st rest /\ forall tr out, yields (mkAll q st rest false) tr out -> yields (mkAll cur (q :: st) rest false) (PEnd (p_offset cur) :: tr) out.
Proof.
  intros Hi Hst Hm. pose proof (end_at_limit _ _ _ rest (inv_fits _ _ _ Hi) Hm Hst) as Ep.
  pose proof (inv_step _ _ _ _ _ _ _ _ Hi Ep eq_refl) as [Hi1 _]. cbn [Z.to_nat skipn] in Hi1. split; [exact Hi1|].
  intros tr out Hy. eapply (yields_item _ _ (mkAll q st rest false)); [|reflexivity|exact Hy].
  unfold all_next. cbn [a_done a_cur a_data a_stack]. rewrite Ep. reflexivity.
Qed.
Lemma entries_yield pos bs pls : code_entries_at pos bs pls -> forall p st rest, inv p st (bs ++ rest) ->
  p_state p = SFunctionBody (zlen pls) (zlen bs) -> p_offset p = pos -> pos + zlen bs <= max_off p ->
  let p' := set_state (set_offset p (pos + zlen bs)) (SFunctionBody 0 0) in
  inv p' st rest /\ forall tr out, yields (mkAll p' st rest false) tr out -> yields (mkAll p st (bs ++ rest) false) (pls ++ tr) out.
Proof.
  induction 1 as [pos|pos lenb body bs pls Hu Hc IH]; intros p st rest Hi Hs Ho Hl p'.
  - rewrite zlen_nil, Z.add_0_r in *. subst p'. rewrite zlen_nil, Z.add_0_r. rewrite parser_eq by auto. split; [exact Hi|]. intros tr out Hy. exact Hy.
  - rewrite !zlen_app, zlen_cons in *. pose proof (zlen_nonneg pls). pose proof (zlen_nonneg bs). pose proof (zlen_nonneg lenb). pose proof (zlen_nonneg body).
    rewrite <- !app_assoc in Hi. rewrite (app_assoc lenb body) in Hi.
    assert (Hst : pstep true p (PCodeEntry (p_offset p + zlen lenb, p_offset p + zlen lenb + zlen body) body) (lenb ++ body)
      (moved (set_state p (SFunctionBody ((1 + zlen pls) - 1) (zlen lenb + (zlen body + zlen bs) - zlen (lenb ++ body)))) (lenb ++ body))).
    { apply ps_entry; auto; [lia|]. rewrite zlen_app. lia. }
    match type of Hst with pstep _ _ _ _ ?n => set (pn := n) in * end.
    destruct (step_yields _ _ _ _ _ _ pn st Hi Hst (fun x => x)) as (Hi1 & Hy1); [rewrite zlen_app; lia|reflexivity|].
    destruct (IH _ _ _ Hi1) as (Hi2 & Hy2).
    { subst pn. unfold moved. cbn [p_state set_state set_offset]. rewrite zlen_app. f_equal; lia. }
    { subst pn. unfold moved. cbn [p_offset set_state set_offset]. rewrite zlen_app. lia. }
    { subst pn. unfold moved, max_off in *. cbn [p_max_offset set_state set_offset]. lia. }
    assert (Ep : set_state (set_offset pn (pos + zlen lenb + zlen body + zlen bs)) (SFunctionBody 0 0) = p').
    { subst pn p'. unfold moved, set_state, set_offset. cbn. f_equal. rewrite !zlen_app. lia. }
    rewrite Ep in Hi2, Hy2. split; [exact Hi2|]. intros tr out Hy. cbn [app]. rewrite <- Ho. rewrite <- !app_assoc, (app_assoc lenb body). apply Hy1. apply Hy2. exact Hy.
Qed.

Theorem document_yields x p items tr bs p' : holds x p items tr bs p' -> x = true -> forall st rest, inv p st (bs ++ rest) ->
  inv p' st rest /\ forall tr' out, yields (mkAll p' st rest false) tr' out -> yields (mkAll p st (bs ++ rest) false) (tr ++ tr') out.
Proof.
  induction 1 as [p|p pl id lenb c p1 items tr bs p' Hst Hu Has Hn Hc Hl H IH|p lenb cb ents ebs p1 items tr bs p' Hst Hu Hce Hl H IH
    |p id lenb len s p1 num e rg c1 sub tr1 bs1 c2 c3 items tr2 bs2 p' Hid Hs Hu Hst Ho Hlim Hv H8 H1 IH1 He Hx H2 IH2]; intros Ex st rest Hi.
  - auto.
  - rewrite <- app_assoc in Hi. assert (Hne : ~ is_end pl) by (destruct pl; cbn in *; congruence || tauto).
    destruct (step_yields _ _ _ _ _ _ p1 st Hi Hst Hne Hl) as (Hi1 & Hy1); [destruct pl; cbn in *; tauto || reflexivity|].
    destruct (IH Ex _ _ Hi1) as (Hi2 & Hy2). split; [exact Hi2|]. intros tr' out Hy. rewrite <- app_assoc. apply Hy1, Hy2, Hy.
  - assert (Eb : ((10 :: lenb ++ cb ++ ebs) ++ bs) ++ rest = (10 :: lenb ++ cb) ++ ebs ++ bs ++ rest) by (cbn; now rewrite <- !app_assoc).
    rewrite Eb in *.
    pose proof (pstep_frame _ _ _ _ _ Hst) as (Fm & Fo & _). specialize (Fo (fun x => x)). pose proof (zlen_nonneg ebs).
    destruct (step_yields _ _ _ _ _ _ p1 st Hi Hst (fun x => x)) as (Hi1 & Hy1); [lia|reflexivity|].
    assert (Es1 : p_state p1 = SFunctionBody (zlen ents) (zlen ebs)).
    { clear - Hst. inversion Hst; subst; [unfold moved; cbn [p_state set_state set_offset]; reflexivity|match goal with H : _ = PCodeStart _ _ _ |- _ => exfalso; revert H; destruct (10 =? 1); discriminate end]. }
    destruct (entries_yield _ _ _ Hce _ _ _ Hi1 Es1 eq_refl) as (Hi2 & Hy2); [unfold max_off in *; rewrite Fm; exact Hl|].
    destruct (IH Ex _ _ Hi2) as (Hi3 & Hy3). split; [exact Hi3|]. intros tr' out Hy. pose proof (Hy1 _ _ (Hy2 _ _ (Hy3 _ _ Hy))) as X. cbn [app] in X |- *. repeat rewrite <- app_assoc in X; repeat rewrite <- app_assoc. exact X.
  - assert (Eb : ((id :: lenb) ++ header_of e ++ bs1 ++ bs2) ++ rest = (id :: lenb) ++ header_of e ++ bs1 ++ bs2 ++ rest) by (rewrite <- !app_assoc; reflexivity).
    rewrite Eb in *.
    assert (Hne : ~ is_end (nested_payload id (child p s (s + len)) (s, s + len))) by (unfold nested_payload; destruct (id =? 1); exact (fun x => x)).
    destruct (step_yields _ _ _ _ _ _ (child p s (s + len)) (p1 :: st) Hi Hst Hne) as (Hi1 & Hy1).
    { rewrite zlen_cons. lia. }
    { unfold nested_payload. destruct (id =? 1); reflexivity. }
    assert (Hh : zlen (header_of e) = 8) by (destruct e; reflexivity).
    destruct (step_yields _ _ _ _ _ _ c1 (p1 :: st) Hi1 Hv (fun x => x)) as (Hi2 & Hy2).
    { rewrite Hh. unfold max_off. cbn. lia. }
    { reflexivity. }
    destruct (IH1 Ex _ _ Hi2) as (Hi3 & Hy3).
    pose proof (pstep_frame _ _ _ _ _ Hv) as (Fm & Fo & _). specialize (Fo (fun x => x)). cbn in Fm. rewrite Hh in Fo. cbn [p_offset child] in Fo.
    pose proof (proj2 (holds_offset _ _ _ _ _ _ H1) Ex) as Ho2. pose proof (holds_frame _ _ _ _ _ _ H1) as Hm2.
    destruct Hx as [Hx|(Hx & _)]; [|congruence].
    destruct (end_yields _ _ _ _ _ Hi3 He) as (Hi4 & Hy4).
    { unfold max_off. rewrite Hm2, Fm. lia. }
    destruct (IH2 Ex _ _ Hi4) as (Hi5 & Hy5). split; [exact Hi5|]. intros tr' out Hy.
    cbn [app]. rewrite <- app_assoc. cbn [app]. apply Hy1, Hy2, Hy3, Hy4, Hy5, Hy.
Qed.

(** * The same sections at another place *)
Record sim (p p2 : parser) : Prop := {
  sm_at : exists q, at_sections p q;
  sm_at2 : exists q, at_sections p2 q;
  sm_enc : p_enc p2 = p_enc p;
  sm_counts : p_counts p2 = p_counts p;
  sm_order : fst (p_order p2) = fst (p_order p);
  sm_snd : snd (p_order p) <= p_offset p }.

Definition section_step (p : parser) (pl : payload) (id : Z) (lenb c : list Z) (p1 : parser) : Prop :=
  pstep true p pl (id :: lenb ++ c) p1 /\ uN 32 lenb (zlen c) /\
  as_section pl = Some (id, (p_offset p + 1 + zlen lenb, p_offset p + 1 + zlen lenb + zlen c)) /\ ~ nested pl /\ ~ is_code pl.

Lemma order_transfer p p2 o s s2 : sim p p2 -> p_offset p < s -> order_ok p o s -> order_ok p2 o s2.
Proof.
  intros [_ _ E1 _ E3 E4] Hs Ho (X1 & X2 & X3). apply Ho. rewrite <- E1. split; [exact X1|]. split; [rewrite <- E3; exact X2|lia].
Qed.
Ltac sim_side :=
  match goal with Hu2 : uN 32 ?l _, Hi : 0 <= ?id < 128 |- header_at _ ?id ?l _ _ => split; [exact Hi|split; [exact Hu2|split; [reflexivity|split; lia]]]
  | |- order_ok _ _ _ => eapply order_transfer; [eassumption| |eassumption]; lia end.
Ltac sim_after :=
  constructor; unfold moved; cbn [p_state p_offset p_enc p_counts p_order set_state set_offset set_counts set_order fst snd];
  [eexists; left; split; [assumption|reflexivity]|eexists; left; split; [assumption|reflexivity]|congruence|congruence|congruence
  |rewrite ?zlen_cons, ?zlen_app; repeat match goal with E : p_order ?q = _ |- context [p_order ?q] => rewrite E | E : p_offset ?q = _ |- context [p_offset ?q] => rewrite E end;
   repeat match goal with |- context [zlen ?l] => lazymatch goal with _ : 0 <= zlen l |- _ => fail | _ => pose proof (zlen_nonneg l) end end; lia].

Lemma sim_section p pl idx lx cx p1 p2 l2 : section_step p pl idx lx cx p1 -> sim p p2 -> uN 32 l2 (zlen cx) ->
  p_offset p2 + 1 + zlen l2 + zlen cx <= max_off p2 -> max_off p2 <= U64MAX ->
  exists pl' p3, section_step p2 pl' idx l2 cx p3 /\ sim p1 p3 /\
    (forall nm dt, (exists rg c, pl = PCustom rg c nm dt) -> exists rg c, pl' = PCustom rg c nm dt).
Proof.
  intros (Hst & Hu0 & Has & Hnn & Hnc) Hsim Hu2 Hfit Hmax.
  pose proof Hsim as [(qa & A1) (q2 & A2) E1 E2 E3 E4].
  pose proof (at_sections_facts _ _ A2) as (B1 & B2 & B3 & B4 & B5 & B6 & B7).
  pose proof (zlen_nonneg lx) as Zl.
  remember (idx :: lx ++ cx) as bs eqn:Ebs.
  pinv Hst; subst; clear Hst;
    try (match goal with Ha : at_sections p _ |- _ => pose proof (at_sections_facts _ _ Ha) as (Q1 & Q2 & Q3 & Q4 & Q5 & Q6 & Q7) end);
    try (match goal with Hh : header_at _ _ _ _ _ |- _ => destruct Hh as (Hi & Hlen & -> & Hm1 & Hm2) end);
    try discriminate Has; try (exfalso; apply Hnc; exact I); try (exfalso; apply Hnn; unfold nested_payload; destruct (_ =? _); exact I);
    try (clear Has; match goal with X : _ :: _ = _ :: _ ++ _ |- _ => injection X as Ei Eb end; subst; destruct (uN_split _ _ _ _ _ _ _ Hlen Hu0 Eb) as (-> & _ & <-); clear Eb);
    try (match goal with He : p_enc p = _ |- _ => rewrite <- E1 in He end).
  - eexists _, _. split; [split; [eapply (ps_custom _ p2 q2 l2 _ nb name data A2); auto; sim_side|repeat split; auto]|]. split; [sim_after|].
    intros nm dt (rg & c & X). injection X as <- <- <- <-. eauto.
  - rewrite <- E2 in Hd. eexists _, _. split; [split; [eapply (ps_limited _ p2 q2 idx o l2 _ cb count items A2); auto; sim_side|repeat split; auto]|]. split; [sim_after|].
    intros nm dt (rg & c & X). discriminate X.
  - eexists _, _. split; [split; [eapply (ps_start _ p2 q2 l2 _ fb func A2); auto; sim_side|repeat split; auto]|]. split; [sim_after|].
    intros nm dt (rg & c & X). discriminate X.
  - eexists _, _. split; [split; [eapply (ps_data_count _ p2 q2 l2 _ cb count A2); auto; sim_side|repeat split; auto]|]. split; [sim_after|].
    intros nm dt (rg & c & X). discriminate X.
  - rewrite <- E1 in Hk. eexists _, _. split; [split; [eapply (ps_unknown _ p2 q2 idx l2 _ contents A2); auto; sim_side|repeat split; auto]|]. split; [sim_after|].
    intros nm dt (rg & c & X). discriminate X.
  - eexists _, _. split; [split; [eapply (ps_climited _ p2 q2 idx l2 _ cb count items A2); auto; sim_side|repeat split; auto]|]. split; [sim_after|].
    intros nm dt (rg & c & X). discriminate X.
  - rewrite <- E2 in Hc. eexists _, _. split; [split; [eapply (ps_cstart _ p2 q2 l2 _ fb func nb args abs rb results A2); auto; sim_side|repeat split; auto]|]. split; [sim_after|].
    intros nm dt (rg & c & X). discriminate X.
Qed.
