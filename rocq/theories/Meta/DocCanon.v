(** Documents written again with shortest lengths read back as the same documents. *)
From Verif.Base Require Import Prelude Utf8.
From Verif.Reader Require Import Model Spec Mono.
From Verif.Leb Require Import Spec Model Proofs ReaderProofs Top.
From Verif.Encoder Require Import Model.
From Verif.Parser Require Import Model Proofs Spec Stream Shape Chunks Complete Tiling Module Forward Encoded.
From Verif.Meta Require Import Model Spec Doc DocWrite.
From Coq Require Import Lia.

Definition kind (e : encoding) : Z := match e with EModule => 1 | EComponent => 4 end.
Inductive canon : list item -> list Z -> Prop :=
| ca_nil : canon [] []
| ca_sec id c b items bs : encode_bytes c = Some b -> canon items bs -> canon (Sec id c :: items) ((id :: b) ++ bs)
| ca_sub id e sub bs1 b items bs :
    canon sub bs1 -> encode_bytes (header_of e ++ bs1) = Some b -> canon items bs -> canon (Sub id e sub :: items) ((kind e :: b) ++ bs).

Lemma enc_u_mono n b w : uN n b w -> forall k v a, 0 <= v <= w -> enc_u k v = Some a -> zlen a <= zlen b.
Proof.
  induction 1 as [n b Hb Hn|n b bs m Hb Hn Hu IH]; intros k v a Hv E; (destruct k as [|k]; [discriminate|]); cbn [enc_u] in E;
    assert (Es : Z.shiftr v 7 = v / 128) by (rewrite Z.shiftr_div_pow2 by lia; reflexivity); rewrite Es in E.
  - rewrite Z.div_small in E by lia. cbn in E. injection E as <-. rewrite !zlen_cons, zlen_nil. lia.
  - pose proof (zlen_nonneg bs). destruct (Z.eqb_spec (v / 128) 0); [injection E as <-; rewrite !zlen_cons, zlen_nil; lia|].
    destruct (enc_u k (v / 128)) as [t|] eqn:Et; [|discriminate]. injection E as <-. rewrite !zlen_cons.
    enough (zlen t <= zlen bs) by lia. eapply IH; [|exact Et]. Z.to_euclidean_division_equations. lia.
Qed.
Lemma enc_usize_mono v w a b : 0 <= v <= w -> encode_usize v = Some a -> uN 32 b w -> zlen a <= zlen b.
Proof. unfold encode_usize. intros Hv E Hu. destruct (_ <=? _); [|discriminate]. eapply enc_u_mono; eauto. Qed.
Lemma encode_bytes_inv c b : encode_bytes c = Some b -> exists l2, b = l2 ++ c /\ uN 32 l2 (zlen c) /\ forall w l, uN 32 l w -> zlen c <= w -> zlen l2 <= zlen l.
Proof.
  unfold encode_bytes. destruct (encode_usize (zlen c)) as [l|] eqn:E; [|discriminate]. intros [= <-]. pose proof (zlen_nonneg c).
  exists l. split; [reflexivity|]. split; [apply enc_usize_uN; auto|]. intros w l' Hu Hw. eapply enc_usize_mono; eauto.
Qed.

Lemma entries_move pos bs pls : code_entries_at pos bs pls -> forall pos2, exists pls2, code_entries_at pos2 bs pls2 /\ zlen pls2 = zlen pls.
Proof.
  induction 1 as [pos|pos lenb body bs pls Hu Hc IH]; intros pos2; [exists []; split; [constructor|reflexivity]|].
  destruct (IH (pos2 + zlen lenb + zlen body)) as (pls2 & H1 & H2). eexists. split; [econstructor; eassumption|]. rewrite !zlen_cons. lia.
Qed.

Definition after_code (p : parser) (n : Z) : parser := set_state (set_offset p (p_offset p + n)) (SFunctionBody 0 0).
Lemma sim_code p n lx cx len p1 p2 l2 z rg : pstep true p (PCodeStart n rg z) (10 :: lx ++ cx) p1 -> uN 32 lx len -> sim p p2 -> uN 32 l2 len -> 0 <= z -> len = zlen cx + z ->
  p_offset p2 + 1 + zlen l2 + len <= max_off p2 -> max_off p2 <= U64MAX ->
  exists p3, pstep true p2 (PCodeStart n (p_offset p2 + 1 + zlen l2, p_offset p2 + 1 + zlen l2 + len) z) (10 :: l2 ++ cx) p3 /\ sim (after_code p1 z) (after_code p3 z).
Proof.
  intros Hst Hu0 Hsim Hu2 Hz0 Hlen0 Hfit Hmax. pose proof Hsim as [(qa & A1) (q2 & A2) E1 E2 E3 E4].
  pose proof (at_sections_facts _ _ A2) as (B1 & B2 & B3 & B4 & B5 & B6 & B7).
  pose proof (zlen_nonneg lx) as Zl.
  inversion Hst as [| | | | | |q lenb len' s cb count Ha He Hh Hord Hu Hle Hf Epl Ebs| | | |qn idn lenbn lenn sn Han Hen Hidn Hhn Hmxn Epl|  | ]; subst.
  2: { exfalso. clear - Epl. discriminate Epl. }
  destruct Hh as (Hi & Hl1 & -> & Hm1 & Hm2).
  pose proof (at_sections_facts _ _ Ha) as (Q1 & Q2 & Q3 & Q4 & Q5 & Q6 & Q7).
  match goal with X : lenb ++ cb = lx ++ cx |- _ => destruct (uN_split _ _ _ _ _ _ _ Hl1 Hu0 X) as (-> & El & ->) end. clear El. replace (zlen cx + (len' - zlen cx)) with len' in * by lia.
  exists (moved (set_state (set_counts (set_order q2 (OCode, p_offset p2 + 1 + zlen l2)) (bump 10 n (p_counts p2))) (SFunctionBody n (len' - zlen cx))) (10 :: l2 ++ cx)).
  split.
  - apply ps_code; auto.
    + congruence.
    + repeat split; auto; lia.
    + eapply order_transfer; [exact Hsim| |exact Hord]. lia.
    + rewrite E2. exact Hf.
  - constructor; unfold after_code, moved; cbn [p_state p_offset p_enc p_counts p_order set_state set_offset set_counts set_order fst snd].
    + eexists. right. split; reflexivity.
    + eexists. right. split; reflexivity.
    + congruence.
    + congruence.
    + reflexivity.
    + rewrite Q4, zlen_cons, zlen_app. pose proof (zlen_nonneg cx). lia.
Qed.

Lemma sim_nested p idx lx len s p1 p2 l2 len2 : pstep true p (nested_payload idx (child p s (s + len)) (s, s + len)) (idx :: lx) p1 -> idx = 1 \/ idx = 4 -> uN 32 lx len -> 0 <= len2 <= len ->
  sim p p2 -> uN 32 l2 len2 -> p_offset p1 = s + len -> s = p_offset p + 1 + zlen lx ->
  p_offset p2 + 1 + zlen l2 + len2 <= max_off p2 -> max_off p2 <= U64MAX ->
  let s2 := p_offset p2 + 1 + zlen l2 in
  exists p3, pstep true p2 (nested_payload idx (child p2 s2 (s2 + len2)) (s2, s2 + len2)) (idx :: l2) p3 /\ p_offset p3 = s2 + len2 /\ sim p1 p3.
Proof.
  intros Hst Hid0 Hu0 Hlen0 Hsim Hu2 Hp1 Hs Hfit Hmax s2. pose proof Hsim as [(qa & A1) (q2 & A2) E1 E2 E3 E4].
  pose proof (at_sections_facts _ _ A2) as (B1 & B2 & B3 & B4 & B5 & B6 & B7).
  pose proof (zlen_nonneg lx) as Zl.
  assert (exists q lenb len', at_sections p q /\ p_enc p = EComponent /\ idx :: lx = idx :: lenb /\ uN 32 lenb len' /\ len' <= MAX_WASM_MODULE_SIZE /\ p1 = set_offset q (s + len)) as (q & lenb & len' & Ha & He & Eb & Hl1 & Hmx & ->).
  { inversion Hst as [|Es Epl Eb|q lenb s' nb name data Ha Hh Hu Hl Hv Epl Eb|q id o lenb s' cb count items Ha He Ho H8 H10 H12 Hh Hord Hu Hd Epl Eb
    |q lenb s' fb func Ha He Hh Hord Hu Epl Eb|q lenb s' cb count Ha He Hh Hord Hu Epl Eb
    |q lenb len' s' cb count Ha He Hh Hord Hu Hle Hf Epl Eb|n l lenb body Es Hn Hu Hle Epl Eb
    |q id lenb s' contents Ha Hid Hk Hh Epl Eb|q id lenb s' cb count items Ha He Hid Hh Hu Epl Eb
    |q id lenb len' s' Ha He Hid Hh Hmx Epl Eb|q lenb s' fb func nb args abs rb results Ha He Hc Hh Hf Hn Hn2 Hab Hr Hr2 Epl Eb
    |q Ha Ee Hf Hd Epl Eb]; try (exfalso; unfold nested_payload in *; destruct (idx =? 1); discriminate).
    subst. destruct Hh as (Hi & Hl1 & -> & Hm1 & Hm2). exists q, lx, len'. repeat split; auto. cbn in Hp1. rewrite Hp1. reflexivity. }
  injection Eb as <-. pose proof (uN_functional _ _ _ Hu0 _ _ Hl1) as <-.
  pose proof (at_sections_facts _ _ Ha) as (Q1 & Q2 & Q3 & Q4 & Q5 & Q6 & Q7).
  exists (set_offset q2 (s2 + len2)). split; [|split; [reflexivity|]].
  - apply ps_nested; auto; [congruence|repeat split; auto; lia|lia].
  - constructor; cbn [p_state p_offset p_enc p_counts p_order set_offset]; try congruence.
    + eexists. left. split; [exact Q7|reflexivity].
    + eexists. left. split; [exact B7|reflexivity].
    + rewrite Q2. lia.
Qed.
Lemma sim_header p s en num e rg c1 p2 s2 en2 : pstep true (child p s en) (PVersion num e rg) (header_of e) c1 ->
  exists c2, pstep true (child p2 s2 en2) (PVersion num e (s2, s2 + 8)) (header_of e) c2 /\ sim c1 c2.
Proof.
  intros H. inversion H as [Es Epl Eb|Es Epl Eb|q lenb s' nb name data Ha Hh Hu Hl Hv Epl Eb|q id o lenb s' cb count items Ha He Ho H8 H10 H12 Hh Hord Hu Hd Epl Eb
    |q lenb s' fb func Ha He Hh Hord Hu Epl Eb|q lenb s' cb count Ha He Hh Hord Hu Epl Eb
    |q lenb len' s' cb count Ha He Hh Hord Hu Hle Hf Epl Eb|n l lenb body Es Hn Hu Hle Epl Eb
    |q id lenb s' contents Ha Hid Hk Hh Epl Eb|q id lenb s' cb count items Ha He Hid Hh Hu Epl Eb
    |q id lenb len' s' Ha He Hid Hh Hmx Epl Eb|q lenb s' fb func nb args abs rb results Ha He Hc Hh Hf Hn Hn2 Hab Hr Hr2 Epl Eb
    |q Ha Ee Hf Hd Epl Eb]; subst.
  3: { exfalso. clear - Epl. destruct (id =? 1); discriminate Epl. }
  - eexists. split; [apply (ps_module_header true (child p2 s2 en2)); reflexivity|].
    constructor; unfold moved; cbn; try reflexivity; [eexists; left; split; reflexivity|eexists; left; split; reflexivity|match goal with |- _ <= _ + zlen ?l => pose proof (zlen_nonneg l); lia end].
  - eexists. split; [apply (ps_component_header true (child p2 s2 en2)); reflexivity|].
    constructor; unfold moved; cbn; try reflexivity; [eexists; left; split; reflexivity|eexists; left; split; reflexivity|match goal with |- _ <= _ + zlen ?l => pose proof (zlen_nonneg l); lia end].
Qed.
Lemma sim_end p off p1 p2 : pstep true p (PEnd off) [] p1 -> sim p p2 -> exists p3, pstep true p2 (PEnd (p_offset p2)) [] p3.
Proof.
  intros H [_ (q2 & A2) E1 E2 E3 E4]. inversion H as [Es Epl Eb|Es Epl Eb|q lenb s' nb name data Ha Hh Hu Hl Hv Epl Eb|q id o lenb s' cb count items Ha He Ho H8 H10 H12 Hh Hord Hu Hd Epl Eb
    |q lenb s' fb func Ha He Hh Hord Hu Epl Eb|q lenb s' cb count Ha He Hh Hord Hu Epl Eb
    |q lenb len' s' cb count Ha He Hh Hord Hu Hle Hf Epl Eb|n l lenb body Es Hn Hu Hle Epl Eb
    |q id lenb s' contents Ha Hid Hk Hh Epl Eb|q id lenb s' cb count items Ha He Hid Hh Hu Epl Eb
    |q id lenb len' s' Ha He Hid Hh Hmx Epl Eb|q lenb s' fb func nb args abs rb results Ha He Hc Hh Hf Hn Hn2 Hab Hr Hr2 Epl Eb
    |q Ha Ee Hf Hd Epl Eb]; subst.
  eexists. apply ps_end; [exact A2|reflexivity|rewrite E2; exact Hf|rewrite E2; exact Hd].
Qed.

Lemma well_kinded_sub id e sub : well_kinded (Sub id e sub) <-> id = kind e /\ Forall well_kinded sub.
Proof.
  cbn [well_kinded]. fold (kind e). apply and_iff_compat_l. induction sub as [|i l IH]; [split; [constructor|auto]|].
  rewrite Forall_cons_iff, <- IH. reflexivity.
Qed.

Theorem rewritten x p items tr bs p' : holds x p items tr bs p' -> Forall well_kinded items -> forall p2 cb,
  sim p p2 -> canon items cb -> p_offset p2 + zlen cb <= max_off p2 -> max_off p2 <= U64MAX ->
  zlen cb <= zlen bs /\ exists tr2 p3, holds true p2 items tr2 cb p3 /\ sim p' p3.
Proof.
  induction 1 as [p|p pl id lenb c p1 items tr bs p' Hst Hu Has Hn Hc Hl H IH|p lenb cb ents ebs p1 items tr bs p' Hst Hu Hce Hl H IH
    |p id lenb len s p1 num e rg c1 sub tr1 bs1 c2 c3 items tr2 bs2 p' Hid Hs Hu Hst Ho Hlim Hv H8 H1 IH1 He Hx H2 IH2]; intros Hwk p2 cbs Hsim Hca Hfit Hmax;
    inversion Hca as [|id' c' b items' bs' Eb Hca'|id' e' sub' bs1' b items' bs' Hca1 Eb Hca']; subst.
  - split; [lia|]. exists [], p2. split; [constructor|exact Hsim].
  - apply Forall_cons_iff in Hwk as (_ & Hwk). destruct (encode_bytes_inv _ _ Eb) as (l2 & -> & Hu2 & Hmin). specialize (Hmin _ _ Hu (Z.le_refl _)).
    rewrite zlen_app, zlen_cons, zlen_app in Hfit. pose proof (zlen_nonneg bs') as Zb.
    destruct (sim_section _ _ _ _ _ _ p2 l2 (conj Hst (conj Hu (conj Has (conj Hn Hc)))) Hsim Hu2) as (pl' & p3 & (S1 & _ & S2 & S3 & S4) & Hsim3 & _); [lia|exact Hmax|].
    pose proof (pstep_frame _ _ _ _ _ S1) as (Fm & Fo & _). specialize (Fo S3). rewrite zlen_cons, zlen_app in Fo.
    destruct (IH Hwk p3 bs' Hsim3 Hca') as (Hz & tr3 & p4 & Hh & Hsim4).
    { unfold max_off in *. rewrite Fm. lia. }
    { unfold max_off in *. rewrite Fm. exact Hmax. }
    split; [rewrite !zlen_app, !zlen_cons, !zlen_app; lia|]. exists (pl' :: tr3), p4. split; [|exact Hsim4].
    rewrite app_comm_cons. eapply ho_sec; eauto. rewrite zlen_cons, zlen_app. lia.
  - apply Forall_cons_iff in Hwk as (_ & Hwk). destruct (encode_bytes_inv _ _ Eb) as (l2 & -> & Hu2 & Hmin). specialize (Hmin _ _ Hu (Z.le_refl _)).
    rewrite zlen_app, zlen_cons, zlen_app in Hfit. pose proof (zlen_nonneg bs') as Zb. pose proof (zlen_nonneg ebs) as Ze.
    destruct (sim_code _ _ _ _ _ _ p2 l2 _ _ Hst Hu Hsim Hu2 Ze) as (p3 & S1 & Hsim3); [rewrite zlen_app; lia|lia|exact Hmax|].
    pose proof (pstep_frame _ _ _ _ _ S1) as (Fm & Fo & _). specialize (Fo (fun x => x)). rewrite zlen_cons, zlen_app in Fo.
    destruct (entries_move _ _ _ Hce (p_offset p3)) as (ents2 & Hce2 & Ez).
    destruct (IH Hwk (after_code p3 (zlen ebs)) bs' Hsim3 Hca') as (Hz & tr3 & p4 & Hh & Hsim4).
    { unfold max_off in *. cbn. rewrite Fm. rewrite zlen_app in Hfit. lia. }
    { unfold max_off in *. cbn. rewrite Fm. exact Hmax. }
    split; [rewrite !zlen_app, !zlen_cons, !zlen_app; lia|]. rewrite <- Ez in S1. eexists _, p4. split; [|exact Hsim4].
    rewrite app_comm_cons. eapply ho_code; eauto. rewrite zlen_app in Hfit. lia.
  - apply Forall_cons_iff in Hwk as (Hwk1 & Hwk). apply well_kinded_sub in Hwk1 as (-> & Hwk1).
    destruct (encode_bytes_inv _ _ Eb) as (l2 & -> & Hu2 & Hmin). assert (Hh8 : zlen (header_of e) = 8) by (destruct e; reflexivity).
    rewrite zlen_app, zlen_cons, zlen_app, zlen_app, Hh8 in Hfit. pose proof (zlen_nonneg bs') as Zb. pose proof (zlen_nonneg bs1') as Zb1. pose proof (zlen_nonneg bs2) as Zb2.
    rewrite zlen_app, Hh8 in Hu2, Hmin.
    set (s2 := p_offset p2 + 1 + zlen l2) in *.
    destruct (sim_header _ _ _ _ _ _ _ p2 s2 (s2 + (8 + zlen bs1')) Hv) as (d1 & Hv2 & Hsimd).
    pose proof (pstep_frame _ _ _ _ _ Hv2) as (Fm & Fo & _). specialize (Fo (fun x => x)). rewrite Hh8 in Fo. cbn [child p_offset p_max_offset] in Fo, Fm.
    destruct (IH1 Hwk1 d1 bs1' Hsimd Hca1) as (Hz1 & tr3 & d2 & Hh1 & Hsimd2).
    { unfold max_off. rewrite Fm. lia. }
    { unfold max_off at 1. rewrite Fm. lia. }
    assert (Hlen2 : 8 + zlen bs1' <= len) by (destruct Hx as [Hx|(_ & _ & Hx)]; lia).
    destruct (sim_nested _ _ _ _ _ _ p2 l2 (8 + zlen bs1') Hst Hid Hu ltac:(lia) Hsim Hu2 Ho eq_refl ltac:(lia) Hmax) as (p3 & S1 & So & Hsim3). fold s2 in S1, So.
    pose proof (pstep_frame _ _ _ _ _ S1) as (Fm3 & _ & _).
    destruct (sim_end _ _ _ _ He Hsimd2) as (d3 & Hend).
    destruct (IH2 Hwk p3 bs' Hsim3 Hca') as (Hz2 & tr4 & p4 & Hh2 & Hsim4).
    { unfold max_off in *. rewrite Fm3. lia. }
    { unfold max_off in *. rewrite Fm3. exact Hmax. }
    specialize (Hmin _ _ Hu Hlen2).
    split; [rewrite !zlen_app, !zlen_cons, !zlen_app, Hh8; lia|].
    eexists _, p4. split; [|exact Hsim4].
    replace ((kind e :: l2 ++ header_of e ++ bs1') ++ bs') with ((kind e :: l2) ++ header_of e ++ bs1' ++ bs') by (cbn; now rewrite <- !app_assoc).
    eapply (ho_sub true p2 (kind e) l2 (8 + zlen bs1') s2); eauto; lia.
Qed.
