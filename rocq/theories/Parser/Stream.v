(** Chunked parsing gives what parsing the whole input gives. *)
From Verif.Base Require Import Prelude Utf8.
From Verif.Reader Require Import Model Spec Mono.
From Verif.Parser Require Import Model Proofs Spec.

Lemma bytes_eqb_eq a b : bytes_eqb a b = true <-> a = b.
Proof.
  revert b. induction a as [|x a IH]; intros [|y b]; cbn; split; intros H; try congruence; try discriminate.
  - apply andb_true_iff in H as [H1 H2]. apply IH in H2. f_equal; [lia|assumption].
  - injection H as <- ->. rewrite Z.eqb_refl. cbn. apply IH. reflexivity.
Qed.

Lemma prefix_of_magic (l ext : list Z) :
  zlen l < 4 -> firstn 4 (l ++ ext) = WASM_MAGIC_NUMBER ->
  l = [] \/ l = [0] \/ l = [0; 97] \/ l = [0; 97; 115].
Proof.
  unfold WASM_MAGIC_NUMBER. intros Hl H.
  destruct l as [|a [|b [|c [|d l]]]]; cbn in H.
  - auto.
  - right; left. congruence.
  - right; right; left. congruence.
  - right; right; right. congruence.
  - exfalso. rewrite !zlen_cons in Hl. pose proof (zlen_nonneg l). lia.
Qed.

Lemma magic_prefix_fails p r :
  r_rem r = [] \/ r_rem r = [0] \/ r_rem r = [0; 97] \/ r_rem r = [0; 97; 115] ->
  exists e, parse_section p r = (Err e, p).
Proof.
  destruct r as [rem pos off ft]. cbn [r_rem].
  unfold parse_section, mbind, lift, get_pos, mget.
  intros [->|[->|[->| ->]]]; unfold read_var_u32, bind, read_u8, ret, fail_pos, section, skip_bytes,
    read_bytes, bytes_remaining, advance; cbn [r_rem r_pos r_off r_feat];
    try change (Z.land 0 128) with 0; try change (Z.land 97 128) with 0; cbn [negb Z.eqb r_rem]; eauto.
  all: change (Z.land 97 128) with 0; cbn [Z.eqb];
    match goal with |- context [U64MAX <? ?x] => destruct (U64MAX <? x); cbn [orb] end; eauto;
    match goal with |- context [max_off ?q <? ?x] => destruct (max_off q <? x) end; eauto.
  all: unfold zlen; cbn; eauto.
Qed.

Lemma parse_section_nil p r : r_rem r = [] -> exists e, parse_section p r = (Err e, p) /\ is_eof e.
Proof.
  destruct r as [rem pos off ft]. cbn [r_rem]. intros ->. cbn. eexists. split; [reflexivity|].
  exists 1. reflexivity.
Qed.

(** The end-of-input arm is only taken on an empty reader. *)
Definition not_end (e : bool) (r : reader) : Prop := e = false \/ r_rem r <> [].

Lemma pss_cases e p r : not_end e r ->
  (firstn 4 (r_rem r) = WASM_MAGIC_NUMBER /\ 
   parse_section_start e p r = (Err (err_new msg_magic (original_position r)), p))
  \/ (firstn 4 (r_rem r) <> WASM_MAGIC_NUMBER /\ parse_section_start e p r = parse_section p r).
Proof.
  intros Hn. unfold parse_section_start.
  assert (Hb : e && (bytes_remaining r =? 0) = false).
  { destruct Hn as [->|Hn]; [reflexivity|]. unfold bytes_remaining.
    destruct (r_rem r) as [|b l]; [congruence|]. rewrite zlen_cons.
    pose proof (zlen_nonneg l). destruct (Z.eqb_spec (1 + zlen l) 0); [lia|]. apply andb_false_r. }
  rewrite Hb. clear Hb. unfold peek_bytes, bytes_remaining.
  destruct (Z.leb_spec 4 (zlen (r_rem r))).
  - change (Z.to_nat 4) with 4%nat.
    destruct (bytes_eqb _ _) eqn:E.
    + apply bytes_eqb_eq in E. left. auto.
    + right. split; [|reflexivity]. intros Hc. apply bytes_eqb_eq in Hc. congruence.
  - right. split; [|reflexivity]. intros Hc. apply (f_equal zlen) in Hc.
    unfold zlen, WASM_MAGIC_NUMBER in *. rewrite firstn_length in Hc. cbn [List.length] in Hc. lia.
Qed.

Lemma rem_extend r ext : r_rem (extend r ext) = r_rem r ++ ext.
Proof. reflexivity. Qed.

Lemma extend_not_end e r ext : r_rem r <> [] -> not_end e (extend r ext).
Proof. intros H. right. rewrite rem_extend. destruct (r_rem r); [congruence|]. discriminate. Qed.

Lemma read_var_u32_pos r v r' : read_var_u32 r = Ok (v, r') -> r_pos r + 1 <= r_pos r'.
Proof.
  unfold read_var_u32, bind. intros Ev. destruct (read_u8 r) as [[b r1]|] eqn:Eb; [|discriminate].
  assert (Hp : r_pos r1 = r_pos r + 1).
  { unfold read_u8 in Eb. destruct (r_rem r); [discriminate|]. injection Eb as _ <-. reflexivity. }
  destruct (Z.land b 128 =? 0).
  - injection Ev as _ <-. lia.
  - pose proof (honest_u_loop 32 25 "invalid var_u32: integer representation too long"
                "invalid var_u32: integer too large" (Z.land b 127) 7 r1) as Hl.
    cbv beta in Hl. rewrite Ev in Hl. destruct Hl as [[bs' (_ & Hl & _)] _].
    pose proof (zlen_nonneg bs'). lia.
Qed.

Lemma consumes_nonempty_id r bs r' p pl p' :
  parse_section p r = (Ok (pl, r'), p') -> consumes r bs r' -> 2 <= zlen bs.
Proof.
  unfold parse_section, mbind, lift, get_pos, mget.
  destruct (read_u8 r) as [[id r1]|] eqn:E8; [|discriminate].
  destruct (negb _); [discriminate|].
  pose proof (honest_read_var_u32 r1) as Hv.
  destruct (read_var_u32 r1) as [[len r2]|] eqn:Ev; [|discriminate].
  assert (H1 : r_pos r1 = r_pos r + 1).
  { unfold read_u8 in E8. destruct (r_rem r); [discriminate|]. injection E8 as _ <-. reflexivity. }
  pose proof (read_var_u32_pos _ _ _ Ev) as H2.
  destruct (_ || _); [discriminate|]. intros Hrun.
  assert (H3 : r_pos r2 <= r_pos r').
  { assert (Hh : forall m : M payload, honestM m -> m p r2 = (Ok (pl, r'), p') -> r_pos r2 <= r_pos r').
    { intros m Hm E. specialize (Hm p r2). rewrite E in Hm.
      destruct Hm as [[bs' (_ & Hl & _)] _]. pose proof (zlen_nonneg bs'). lia. }
    destruct (id =? 0).
    - apply (Hh (lift (section len custom_new))); [|exact Hrun]. apply honestM_lift. auto with honest.
    - destruct (p_enc p); (eapply Hh; [|exact Hrun]); auto with honest. }
  intros (_ & Hp & _). lia.
Qed.

Lemma pss_ok p r pl r' p' :
  parse_section_start false p r = (Ok (pl, r'), p') ->
  (exists bs, consumes r bs r' /\ 2 <= zlen bs) /\
  forall ext e, parse_section_start e p (extend r ext) = (Ok (pl, extend r' ext), p').
Proof.
  intros H. destruct (pss_cases false p r (or_introl eq_refl)) as [[_ E]|[Hm E]];
    rewrite E in H; [discriminate|].
  pose proof (honestM_parse_section p r) as Hh. rewrite H in Hh. destruct Hh as [[bs Hc] Hext].
  split; [exists bs; split; [exact Hc|eapply consumes_nonempty_id; eauto]|].
  intros ext e.
  assert (Hne : r_rem r <> []).
  { intros Hn. destruct (parse_section_nil p r Hn) as (e0 & H0 & _). congruence. }
  destruct (pss_cases e p (extend r ext) (extend_not_end e r ext Hne)) as [[Hm2 _]|[_ ->]]; [|apply Hext].
  exfalso. rewrite rem_extend in Hm2.
  destruct (Z.lt_ge_cases (zlen (r_rem r)) 4) as [Hl|Hl].
  - destruct (magic_prefix_fails p r (prefix_of_magic _ _ Hl Hm2)) as [e0 H0]. congruence.
  - rewrite firstn_app_le in Hm2 by (unfold zlen in Hl; lia). congruence.
Qed.

(** There is no room for a section of 97 bytes, the one the magic number looks like. *)
Definition tight (p : parser) (pos : Z) : Prop := max_off p < pos + 99 \/ U64MAX < pos + 99.

Lemma magic_prefix_eof p r :
  r_rem r = [] \/ r_rem r = [0] \/ r_rem r = [0; 97] \/ r_rem r = [0; 97; 115] ->
  exists e, parse_section p r = (Err e, p) /\ (is_eof e \/ tight p (original_position r)).
Proof.
  unfold tight.
  destruct r as [rem pos off ft]. cbn [r_rem]. unfold original_position. cbn [r_pos r_off].
  unfold parse_section, mbind, lift, get_pos, mget.
  intros [->|[->|[->| ->]]]; unfold read_var_u32, bind, read_u8, ret, fail_pos, section, skip_bytes,
    read_bytes, bytes_remaining, advance, original_position; cbn [r_rem r_pos r_off r_feat];
    try change (Z.land 0 128) with 0; try change (Z.land 97 128) with 0; cbn [negb Z.eqb r_rem].
  1, 2: eexists; split; [reflexivity|]; left; eexists; reflexivity.
  all: change (Z.land 97 128) with 0; cbn [Z.eqb r_rem r_pos r_off r_feat];
    match goal with |- context [U64MAX <? ?x] => destruct (Z.ltb_spec U64MAX x); cbn [orb] end;
    [eexists; split; [reflexivity|right; lia]|];
    match goal with |- context [max_off ?q <? ?x] => destruct (Z.ltb_spec (max_off q) x) end;
    [eexists; split; [reflexivity|right; lia]|].
  all: unfold zlen; cbn; eexists; split; [reflexivity|]; left; eexists; reflexivity.
Qed.

Lemma pss_err p r er p' :
  parse_section_start false p r = (Err er, p') -> e_hint er = None ->
  forall ext e, exists er' p'', parse_section_start e p (extend r ext) = (Err er', p'') /\
    (er' = er \/ e_msg er' = msg_magic /\ tight p (original_position r)).
Proof.
  intros H Hn ext e.
  assert (Hne : r_rem r <> []).
  { intros Hz. destruct (parse_section_nil p r Hz) as (e0 & H0 & He0).
    destruct (pss_cases false p r (or_introl eq_refl)) as [[Hf _]|[_ E]].
    - rewrite Hz in Hf. discriminate.
    - rewrite E, H0 in H. injection H as <- _. eapply none_not_eof; eauto. }
  destruct (pss_cases e p (extend r ext) (extend_not_end e r ext Hne)) as [[Hm2 ->]|[Hm2 ->]].
  - do 2 eexists. split; [reflexivity|]. rewrite extend_pos.
    destruct (pss_cases false p r (or_introl eq_refl)) as [[Hf E]|[Hf E]].
    + left. rewrite E in H. injection H as <- _. reflexivity.
    + right. split; [reflexivity|]. rewrite rem_extend in Hm2.
      assert (Hlt : zlen (r_rem r) < 4).
      { destruct (Z.lt_ge_cases (zlen (r_rem r)) 4) as [|Hge]; [assumption|]. exfalso. apply Hf.
        rewrite firstn_app_le in Hm2 by (unfold zlen in Hge; lia). exact Hm2. }
      destruct (magic_prefix_eof p r (prefix_of_magic _ _ Hlt Hm2)) as (e0 & E0 & [He|Ht]); [|exact Ht].
      exfalso. rewrite E, E0 in H. injection H as <- _. eapply none_not_eof; eauto.
  - destruct (pss_cases false p r (or_introl eq_refl)) as [[Hf _]|[_ E]].
    + exfalso. apply Hm2. rewrite rem_extend, firstn_app_le; [exact Hf|].
      apply (f_equal (@List.length Z)) in Hf. rewrite firstn_length in Hf.
      unfold WASM_MAGIC_NUMBER in Hf. cbn [List.length] in Hf. lia.
    + rewrite E in H. pose proof (honestM_parse_section p r) as Hh. rewrite H in Hh.
      rewrite (Hh Hn). eauto.
Qed.

Lemma pss_retry p r er p' :
  parse_section_start false p r = (Err er, p') -> is_eof er -> starts_seen p' = starts_seen p ->
  forall ext e, parse_section_start e p' (extend r ext) = parse_section_start e p (extend r ext)
                \/ (r_rem r ++ ext = [] /\ p' = p).
Proof.
  intros H He Hs ext e.
  destruct (pss_cases false p r (or_introl eq_refl)) as [[Hf E]|[_ E]]; rewrite E in H.
  { injection H as <- _. destruct He as [h Hh]. discriminate. }
  destruct (r_rem r ++ ext) as [|b l] eqn:El.
  { apply app_eq_nil in El as [Hr _]. destruct (parse_section_nil p r Hr) as (e0 & H0 & _).
    right. split; [reflexivity|]. congruence. }
  left.
  assert (Hne : not_end e (extend r ext)) by (right; rewrite rem_extend, El; discriminate).
  destruct (pss_cases e p (extend r ext) Hne) as [[Hm ->]|[Hm ->]].
  2:{ destruct (pss_cases e p' (extend r ext) Hne) as [[Hm' _]|[_ ->]]; [congruence|].
      eapply parse_section_retry; eauto. }
  destruct (pss_cases e p' (extend r ext) Hne) as [[_ ->]|[Hm' _]]; [|congruence].
  rewrite rem_extend in Hm.
  destruct (Z.lt_ge_cases (zlen (r_rem r)) 4) as [Hl|Hl].
  - destruct (magic_prefix_fails p r (prefix_of_magic _ _ Hl Hm)) as [e0 H0]. 
    rewrite H0 in H. injection H as _ <-. reflexivity.
  - rewrite firstn_app_le in Hm by (unfold zlen in Hl; lia).
    destruct (pss_cases false p r (or_introl eq_refl)) as [[_ E2]|[Hf _]]; [|congruence].
    rewrite E2 in E. rewrite <- E in H. injection H as <- _. destruct He as [h Hh]. discriminate.
Qed.

Lemma consumes_body_pos n l p r pl r' p' bs :
  parse_body n l p r = (Ok (pl, r'), p') -> consumes r bs r' -> 1 <= zlen bs.
Proof.
  unfold parse_body, mbind, lift, delimited, mget, mput, mret, read_reader, bind.
  destruct (read_var_u32 r) as [[size r2]|] eqn:Ev; [|discriminate].
  pose proof (honest_skip_bytes size r2) as Hs.
  destruct (skip_bytes size r2) as [[b r3]|]; [|discriminate].
  destruct Hs as [[bs3 (_ & Hp3 & _)] _].
  destruct (0 <=? _); [|discriminate]. intros [= _ <- _] (_ & Hp & _).
  pose proof (read_var_u32_pos _ _ _ Ev) as H2.
  pose proof (zlen_nonneg bs3). lia.
Qed.

Lemma read_bytes_pos n r bs r' :
  0 <= n -> read_bytes n r = Ok (bs, r') -> zlen bs = n /\ r_pos r' = r_pos r + n.
Proof.
  intros Hn. unfold read_bytes, bytes_remaining.
  destruct (Z.leb_spec n (zlen (r_rem r))) as [H|H]; [|discriminate].
  assert (L : zlen (firstn (Z.to_nat n) (r_rem r)) = n).
  { unfold zlen in *. rewrite firstn_length. lia. }
  intros E. injection E as Eb Er. subst bs r'. unfold advance. cbn [r_pos]. rewrite L. auto.
Qed.

Lemma consumes_header_pos p r pl r' p' bs :
  parse_header p r = (Ok (pl, r'), p') -> consumes r bs r' -> zlen bs = 8.
Proof.
  unfold parse_header, read_header_version, bind.
  destruct (read_bytes 4 r) as [[m r1]|] eqn:E1; [|discriminate].
  destruct (bytes_eqb _ _); [|discriminate]. unfold read_u32, bind, ret.
  destruct (read_bytes 4 r1) as [[v r2]|] eqn:E2; [|discriminate].
  destruct (header_encoding _ _); [|discriminate].
  intros E (_ & Hp & _). injection E as _ <- _.
  apply read_bytes_pos in E1; [|lia]. apply read_bytes_pos in E2; [|lia]. lia.
Qed.

Lemma pr_ok p r pl r' p' :
  parse_reader false p r = (Ok (pl, r'), p') ->
  (exists bs, consumes r bs r' /\ 1 <= zlen bs) /\
  forall ext e, parse_reader e p (extend r ext) = (Ok (pl, extend r' ext), p').
Proof.
  unfold parse_reader. destruct (p_state p) as [| |n l].
  - intros H. pose proof (honestM_parse_header p r) as Hh. rewrite H in Hh.
    destruct Hh as [[bs Hc] Hh]. split; [|auto]. exists bs. split; [exact Hc|].
    rewrite (consumes_header_pos _ _ _ _ _ _ H Hc). lia.
  - intros H. apply pss_ok in H as [(bs & Hc & Hb) H]. split; [exists bs; split; [exact Hc|lia]|auto].
  - destruct (n =? 0).
    + destruct (l =? 0); [|discriminate]. intros H.
      apply pss_ok in H as [(bs & Hc & Hb) H]. split; [exists bs; split; [exact Hc|lia]|auto].
    + intros H. pose proof (honestM_parse_body n l p r) as Hh. rewrite H in Hh.
      destruct Hh as [[bs Hc] Hh]. split; [|auto]. exists bs. split; [exact Hc|].
      eapply consumes_body_pos; eauto.
Qed.

Lemma pr_err p r er p' :
  parse_reader false p r = (Err er, p') -> e_hint er = None ->
  forall ext e, exists er' p'', parse_reader e p (extend r ext) = (Err er', p'') /\
    (er' = er \/ e_msg er' = msg_magic /\ tight p (original_position r)).
Proof.
  unfold parse_reader. destruct (p_state p) as [| |n l].
  - intros H Hn ext e. pose proof (honestM_parse_header p r) as Hh. rewrite H in Hh.
    rewrite (Hh Hn). eauto.
  - intros H Hn. eapply pss_err; eauto.
  - destruct (n =? 0).
    + destruct (l =? 0).
      * intros H Hn. exact (pss_err (set_state p SSectionStart) r er p' H Hn).
      * intros [= <- _] _ ext e. rewrite extend_pos. eauto.
    + intros H Hn ext e. pose proof (honestM_parse_body n l p r) as Hh. rewrite H in Hh.
      rewrite (Hh Hn). eauto.
Qed.

(** What a request for more data never changes. *)
Definition frame (p : parser) :=
  (p_state p, p_offset p, p_max_offset p, p_enc p, p_feat p,
   (function_entries (p_counts p), code_entries (p_counts p), data_entries (p_counts p), data_count (p_counts p))).

Lemma parse_section_state p r er p' :
  parse_section p r = (Err er, p') -> is_eof er -> frame p' = frame p.
Proof.
  unfold parse_section, mbind, lift, get_pos, mget.
  destruct (read_u8 r) as [[id r1]|e8]; [|intros [= _ <-]; reflexivity].
  destruct (negb _); [intros [= _ <-]; reflexivity|].
  destruct (read_var_u32 r1) as [[len r2]|ev]; [|intros [= _ <-]; reflexivity].
  set (ss := original_position r2).
  destruct (_ || _); [intros [= _ <-]; reflexivity|].
  destruct (id =? 0). { intros [= _ <-]; reflexivity. }
  destruct (p_enc p).
  - intros Hrun He. revert Hrun. unfold parse_module_section, ordered_limited. intros Hrun.
    assert (Haux : forall (m : M payload), quiet m -> forall o,
        (do _ <- update_order o ss; m) p r2 = (Err er, p') -> frame p' = frame p).
    { intros m Hq o. unfold mbind, update_order. destruct (p_order p).
      destruct (_ && _); [intros [= <- _]; destruct He as [h Hh]; discriminate|].
      intros Hm. pose proof (Hq _ _ _ _ Hm He). subst p'. reflexivity. }
    assert (Haux2 : forall (m : M payload), quiet m -> m p r2 = (Err er, p') -> frame p' = frame p).
    { intros m Hq Hm. pose proof (Hq _ _ _ _ Hm He). subst p'. reflexivity. }
    repeat match type of Hrun with (if ?b then _ else _) _ _ = _ => destruct b end;
        lazymatch type of Hrun with
        | mbind (update_order _ _) _ _ _ = _ => eapply Haux; [|exact Hrun]; qt
        | _ => eapply Haux2; [|exact Hrun]; qt
        end.
  - intros Hrun He. unfold parse_component_section in Hrun.
    assert (Haux2 : forall (m : M payload), quiet m -> m p r2 = (Err er, p') -> frame p' = frame p).
    { intros m Hq Hm. pose proof (Hq _ _ _ _ Hm He). subst p'. reflexivity. }
    destruct (_ || _). { eapply Haux2; [|exact Hrun]; qt. }
    destruct (_ || _). { eapply Haux2; [|exact Hrun]; qt. }
    destruct (id =? 9). 2:{ eapply Haux2; [|exact Hrun]; qt. }
    unfold mbind, mget, mput, lift in Hrun. destruct (component_start_sections _).
    + injection Hrun as _ <-. reflexivity.
    + destruct (single_item _ _ _ _) as [[[a b] r']|]; [discriminate|].
      injection Hrun as _ <-. reflexivity.
Qed.

Lemma pss_state p r er p' :
  parse_section_start false p r = (Err er, p') -> is_eof er -> frame p' = frame p.
Proof.
  intros H He. destruct (pss_cases false p r (or_introl eq_refl)) as [[Hf E]|[_ E]]; rewrite E in H.
  - injection H as _ <-. reflexivity.
  - eapply parse_section_state; eauto.
Qed.

Lemma pr_retry p r er p' :
  parse_reader false p r = (Err er, p') -> is_eof er -> starts_seen p' = starts_seen p ->
  forall ext e, parse_reader e p' (extend r ext) = parse_reader e p (extend r ext).
Proof.
  unfold parse_reader. destruct (p_state p) as [| |n l] eqn:Es.
  - intros H He _ ext e. pose proof (quiet_parse_header _ _ _ _ H He). subst p'. rewrite Es. reflexivity.
  - intros H He Hs ext e.
    assert (Es' : p_state p' = SSectionStart) by (pose proof (pss_state _ _ _ _ H He) as F; unfold frame in F; congruence).
    rewrite Es'.
    destruct (pss_retry _ _ _ _ H He Hs ext e) as [->|[_ ->]]; reflexivity.
  - destruct (n =? 0) eqn:En.
    + destruct (l =? 0) eqn:El.
      * intros H He Hs ext e.
        assert (Es' : p_state p' = SSectionStart).
        { pose proof (pss_state _ _ _ _ H He) as F. unfold frame in F. cbn [set_state p_state] in F. congruence. }
        rewrite Es'.
        destruct (pss_retry _ _ _ _ H He Hs ext e) as [->|[_ ->]]; reflexivity.
      * intros [= <- _] [h Hh]. discriminate.
    + intros H He _ ext e. pose proof (quiet_parse_body _ _ _ _ _ _ H He). subst p'.
      rewrite Es, En. reflexivity.
Qed.

Lemma pr_frame p r er p' :
  parse_reader false p r = (Err er, p') -> is_eof er ->
  p_offset p' = p_offset p /\ p_max_offset p' = p_max_offset p /\ p_feat p' = p_feat p /\
  function_entries (p_counts p') = function_entries (p_counts p) /\
  code_entries (p_counts p') = code_entries (p_counts p) /\
  data_entries (p_counts p') = data_entries (p_counts p) /\
  data_count (p_counts p') = data_count (p_counts p).
Proof.
  unfold parse_reader. destruct (p_state p) as [| |n l] eqn:Es.
  - intros H He. pose proof (quiet_parse_header _ _ _ _ H He). subst p'. auto 10.
  - intros H He. pose proof (pss_state _ _ _ _ H He) as F. unfold frame in F. repeat split; congruence.
  - destruct (n =? 0).
    + destruct (l =? 0).
      * intros H He. pose proof (pss_state _ _ _ _ H He) as F. unfold frame in F.
        cbn in F. repeat split; congruence.
      * intros [= _ <-]. auto 10.
    + intros H He. pose proof (quiet_parse_body _ _ _ _ _ _ H He). subst p'. auto 10.
Qed.

(** The exception: a start section cut short. *)
Lemma ps_start_cut p r er p' :
  parse_section p r = (Err er, p') -> is_eof er -> starts_seen p' <> starts_seen p ->
  (exists t, r_rem r = 9 :: t) /\ p_enc p = EComponent /\
  forall ext, (exists e, parse_section p' (extend r ext) = (Err e, p') /\ e_msg e = msg_start /\ e_hint e = None) /\
    match fst (parse_section p (extend r ext)) with Ok (pl, _) => is_component_start pl | Err _ => True end.
Proof.
  unfold parse_section, mbind, lift, get_pos, mget.
  pose proof (honest_read_u8 r) as H8.
  destruct (read_u8 r) as [[id r1]|e8] eqn:E8.
  2:{ intros [= _ <-] _ Hs. congruence. }
  destruct H8 as [_ H8].
  destruct (negb (Z.land id 128 =? 0)) eqn:Eid.
  { intros [= <- _] [h Hh]. discriminate. }
  pose proof (honest_read_var_u32 r1) as Hv.
  destruct (read_var_u32 r1) as [[len r2]|ev].
  2:{ intros [= _ <-] _ Hs. congruence. }
  destruct Hv as [_ Hv].
  set (ss := original_position r2). set (se := ss + len).
  destruct ((U64MAX <? se) || (max_off p <? se)) eqn:Esz.
  { intros [= <- _] [h Hh]. discriminate. }
  destruct (Z.eqb_spec id 0).
  { intros [= _ <-] _ Hs. congruence. }
  destruct (p_enc p) eqn:Een.
  { intros Hrun He Hs. exfalso. apply Hs. revert Hrun. unfold parse_module_section, ordered_limited. intros Hrun.
    assert (Haux : forall (m : M payload), quiet m -> forall o,
        (do _ <- update_order o ss; m) p r2 = (Err er, p') -> starts_seen p' = starts_seen p).
    { intros m Hq o. unfold mbind, update_order. destruct (p_order p).
      destruct (_ && _); [intros [= <- _]; destruct He as [h Hh]; discriminate|].
      intros Hm. pose proof (Hq _ _ _ _ Hm He). subst p'. reflexivity. }
    assert (Haux2 : forall (m : M payload), quiet m -> m p r2 = (Err er, p') -> starts_seen p' = starts_seen p).
    { intros m Hq Hm. pose proof (Hq _ _ _ _ Hm He). subst p'. reflexivity. }
    repeat match type of Hrun with (if ?b then _ else _) _ _ = _ => destruct b end;
        lazymatch type of Hrun with
        | mbind (update_order _ _) _ _ _ = _ => eapply Haux; [|exact Hrun]; qt
        | _ => eapply Haux2; [|exact Hrun]; qt
        end. }
  intros Hrun He Hs.
  assert (Hfr : frame p' = frame p).
  { clear - Hrun He. unfold parse_component_section in Hrun.
    assert (Haux2 : forall (m : M payload), quiet m -> m p r2 = (Err er, p') -> frame p' = frame p).
    { intros m Hq Hm. pose proof (Hq _ _ _ _ Hm He). subst p'. reflexivity. }
    repeat match type of Hrun with (if ?b then _ else _) _ _ = _ => destruct b end;
      try solve [eapply Haux2; [|exact Hrun]; qt].
    unfold mbind, mget, mput, lift in Hrun. destruct (component_start_sections _).
    + injection Hrun as _ <-. reflexivity.
    + destruct (single_item _ _ _ _) as [[[a b] r']|]; [discriminate|].
      injection Hrun as _ <-. reflexivity. }
  destruct (component_section_quiet _ _ _ _ _ _ _ _ _ Hrun He) as [->|(-> & Hs1 & Hs2)]; [congruence|].
  assert (Hf : p_enc p' = p_enc p /\ max_off p' = max_off p).
  { unfold frame in Hfr. assert (p_max_offset p' = p_max_offset p) as Hm by congruence.
    unfold max_off. rewrite Hm. split; congruence. }
  destruct Hf as [Hfe Hfm].
  split.
  { unfold read_u8 in E8. destruct (r_rem r) as [|b t]; [discriminate|]. injection E8 as -> _. eauto. }
  split; [reflexivity|].
  intros ext. rewrite H8, Eid, Hv, !extend_pos. fold ss. fold se. rewrite Hfm, Hfe, Esz, Een. cbn [Z.eqb].
  unfold parse_component_section. cbn [Z.eqb orb Pos.eqb].
  unfold mbind, mget, mput, lift. fold (starts_seen p'). fold (starts_seen p). rewrite Hs1, Hs2.
  split.
  - eexists. split; [reflexivity|]. split; reflexivity.
  - destruct (single_item _ _ _ _) as [[[a b] r']|]; cbn; exact I.
Qed.

Lemma pss_start_cut p r er p' :
  parse_section_start false p r = (Err er, p') -> is_eof er -> starts_seen p' <> starts_seen p ->
  forall ext e, (exists er', parse_section_start e p' (extend r ext) = (Err er', p') /\ e_msg er' = msg_start /\ e_hint er' = None) /\
    match fst (parse_section_start e p (extend r ext)) with Ok (pl, _) => is_component_start pl | Err _ => True end.
Proof.
  intros H He Hs ext e.
  destruct (pss_cases false p r (or_introl eq_refl)) as [[Hf E]|[_ E]]; rewrite E in H.
  { injection H as <- _. destruct He as [h Hh]. discriminate. }
  destruct (ps_start_cut _ _ _ _ H He Hs) as ([t Ht] & _ & Hc). destruct (Hc ext) as [Hc1 Hc2].
  assert (Hne : not_end e (extend r ext)) by (apply extend_not_end; rewrite Ht; discriminate).
  assert (Hm : firstn 4 (r_rem (extend r ext)) <> WASM_MAGIC_NUMBER).
  { rewrite rem_extend, Ht. cbn. discriminate. }
  destruct (pss_cases e p' (extend r ext) Hne) as [[? _]|[_ ->]]; [congruence|].
  destruct (pss_cases e p (extend r ext) Hne) as [[? _]|[_ ->]]; [congruence|].
  auto.
Qed.

Lemma pr_start_cut p r er p' :
  parse_reader false p r = (Err er, p') -> is_eof er -> starts_seen p' <> starts_seen p ->
  forall ext e, (exists er', parse_reader e p' (extend r ext) = (Err er', p') /\ e_msg er' = msg_start /\ e_hint er' = None) /\
    match fst (parse_reader e p (extend r ext)) with Ok (pl, _) => is_component_start pl | Err _ => True end.
Proof.
  unfold parse_reader. destruct (p_state p) as [| |n l] eqn:Es.
  - intros H He Hs. pose proof (quiet_parse_header _ _ _ _ H He). congruence.
  - intros H He Hs ext e.
    assert (Es' : p_state p' = SSectionStart) by (pose proof (pss_state _ _ _ _ H He) as F; unfold frame in F; congruence).
    rewrite Es'. eapply pss_start_cut; eauto.
  - destruct (n =? 0).
    + destruct (l =? 0).
      * intros H He Hs ext e.
        assert (Es' : p_state p' = SSectionStart).
        { pose proof (pss_state _ _ _ _ H He) as F. unfold frame in F. cbn [set_state p_state] in F. congruence. }
        rewrite Es'. eapply pss_start_cut; eauto.
      * intros [= _ <-] _ Hs. congruence.
    + intros H He Hs. pose proof (quiet_parse_body _ _ _ _ _ _ H He). congruence.
Qed.

(** Only a component's start section leaves a trace when it has to be retried. *)
Lemma pr_start_enc p r er p' :
  parse_reader false p r = (Err er, p') -> is_eof er -> starts_seen p' <> starts_seen p -> p_enc p = EComponent.
Proof.
  assert (Hpss : forall q, parse_section_start false q r = (Err er, p') -> is_eof er -> starts_seen p' <> starts_seen q ->
    p_enc q = EComponent).
  { intros q H He Hs. destruct (pss_cases false q r (or_introl eq_refl)) as [[Hf E]|[_ E]]; rewrite E in H.
    { injection H as <- _. destruct He as [h Hh]. discriminate. }
    destruct (ps_start_cut _ _ _ _ H He Hs) as (_ & Hc & _). exact Hc. }
  unfold parse_reader. destruct (p_state p) as [| |n l] eqn:Es.
  - intros H He Hs. pose proof (quiet_parse_header _ _ _ _ H He). congruence.
  - apply Hpss.
  - destruct (n =? 0).
    + destruct (l =? 0).
      * apply (Hpss (set_state p SSectionStart)).
      * intros [= _ <-] _ Hs. congruence.
    + intros H He Hs. pose proof (quiet_parse_body _ _ _ _ _ _ H He). congruence.
Qed.
