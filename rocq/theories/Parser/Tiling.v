(** Progress, termination and tiling of [parse] and [parse_all]. *)
From Verif.Base Require Import Prelude Utf8.
From Verif.Reader Require Import Model Spec Mono.
From Verif.Leb Require Import Spec Proofs.
From Verif.Parser Require Import Model Proofs Spec Stream Shape Chunks Complete.

(** ** Hints are positive *)
Definition posM {A} (m : M A) : Prop := forall p r e p' h,
  m p r = (Err e, p') -> e_hint e = Some h -> 0 < h.

Lemma posM_lift {A} (m : R A) : honest m -> posM (lift m).
Proof.
  intros H p r e p' h. specialize (H r). unfold lift. destruct (m r) as [[a r']|er]; [discriminate|].
  intros [= <- _] Hh. rewrite Hh in H. apply H.
Qed.
Lemma posM_bind {A B} (m : M A) (f : A -> M B) : posM m -> (forall a, posM (f a)) -> posM (mbind m f).
Proof.
  intros Hm Hf p r e p' h. unfold mbind. specialize (Hm p r).
  destruct (m p r) as [[[a r']|er] p1]; [apply Hf|].
  intros E. injection E as <- <-. apply (Hm _ _ _ eq_refl).
Qed.
Lemma posM_if {A} (b : bool) (m1 m2 : M A) : posM m1 -> posM m2 -> posM (if b then m1 else m2).
Proof. destruct b; auto. Qed.
Lemma posM_nohint {A} (m : M A) : nohint m -> posM m.
Proof. intros H p r e p' h E Hh. rewrite (H _ _ _ _ E) in Hh. discriminate. Qed.
Lemma nohint_update_order o s : nohint (update_order o s).
Proof.
  intros p r e p'. unfold update_order. destruct (p_order p). destruct (_ && _); [|discriminate].
  intros [= <- _]. reflexivity.
Qed.

Ltac pm := repeat (cbv beta zeta; lazymatch goal with
  | |- posM (if _ then _ else _) => apply posM_if
  | |- posM (let '(_, _) := ?a in _) => destruct a
  | |- posM (match p_enc ?x with EModule => _ | EComponent => _ end) => destruct (p_enc x)
  | |- posM (lift _) => apply posM_lift; auto with honest
  | |- posM (mbind _ _) => apply posM_bind; [|intros ?]
  | |- posM (mret _) => apply posM_nohint, nohint_mret
  | |- posM mget => apply posM_nohint, nohint_mget
  | |- posM (mput _) => apply posM_nohint, nohint_mput
  | |- posM (update_order _ _) => apply posM_nohint, nohint_update_order
  | |- posM (mcheck check_function_code_counts _) => apply posM_nohint, nohint_check_fc
  | |- posM (mcheck check_data_count _) => apply posM_nohint, nohint_check_dc
  | |- posM (parse_module_section _ _ _ _) => unfold parse_module_section, ordered_limited
  | |- posM (parse_component_section _ _ _ _ _) => unfold parse_component_section
  end).

Lemma parse_section_pos : posM parse_section.
Proof.
  unfold parse_section. pm. match goal with |- context [p_enc ?x] => destruct (p_enc x) end; pm.
Qed.

Lemma parse_reader_pos e : posM (parse_reader e).
Proof.
  intros p r er p' h. unfold parse_reader.
  assert (Hs : forall q, parse_section_start e q r = (Err er, p') -> e_hint er = Some h -> 0 < h).
  { intros q. unfold parse_section_start. destruct (e && _).
    - destruct (check_function_code_counts _ _) eqn:E1.
      + destruct (check_data_count _ _) eqn:E2; [discriminate|]. intros [= <- _] Hh.
        apply check_data_count_nohint in E2. congruence.
      + intros [= <- _] Hh. apply check_function_code_counts_nohint in E1. congruence.
    - destruct (peek_bytes 4 r) as [[bs ?]|]; [destruct (bytes_eqb _ _)|].
      + intros [= <- _]. discriminate.
      + apply parse_section_pos.
      + apply parse_section_pos. }
  destruct (p_state p) as [| |n l].
  - unfold parse_header. pose proof (honest_read_header_version r) as H.
    destruct (read_header_version r) as [[v r']|e0].
    + destruct (header_encoding _ _); [discriminate|]. intros [= <- _]. discriminate.
    + intros [= <- _] Hh. rewrite Hh in H. apply H.
  - apply Hs.
  - destruct (n =? 0); [destruct (l =? 0)|].
    + apply Hs.
    + intros [= <- _]. discriminate.
    + assert (Hb : posM (parse_body n l)) by (unfold parse_body; pm). apply Hb.
Qed.

Lemma parse_hint_pos p d e h p' : fits p d -> parse p d e = (Ok (NeedMoreData h), p') -> 0 < h.
Proof.
  intros Hf. rewrite (parse_eff p d e Hf). unfold finish.
  destruct (parse_reader _ p _) as [[[pl r']|er] p1] eqn:E; [discriminate|].
  destruct (snd (eff p d e)); [discriminate|]. destruct (e_hint er) as [k|] eqn:Eh; [|discriminate].
  intros [= <- _]. eapply parse_reader_pos; eauto.
Qed.

(** ** Completeness *)
Lemma pstep_flag e e' p pl bs p' : ~ is_end pl -> pstep e p pl bs p' -> pstep e' p pl bs p'.
Proof.
  intros Hn H. destruct H; try (econstructor; eassumption). exfalso. apply Hn. exact I.
Qed.

Lemma parse_complete p pl bs rest p' e : fits p (bs ++ rest) -> bytes_ok (bs ++ rest) ->
  p_offset p + zlen bs <= max_off p -> ~ is_end pl -> pstep true p pl bs p' ->
  parse p (bs ++ rest) e = (Ok (Parsed (zlen bs) pl), p').
Proof.
  intros Hf Hok Hlim Hne Hst. rewrite (parse_eff _ _ _ Hf).
  assert (Hex : exists rest', fst (eff p (bs ++ rest) e) = bs ++ rest' /\ bytes_ok (bs ++ rest')).
  { unfold eff. destruct (Z.ltb_spec (max_off p - p_offset p) (zlen (bs ++ rest))); cbn [fst].
    - rewrite firstn_app. rewrite firstn_all2 by (unfold zlen in *; lia). eexists. split; [reflexivity|].
      apply Forall_app in Hok as [H1 H2]. apply Forall_app. split; [exact H1|]. apply firstn_bytes_ok, H2.
    - eauto. }
  destruct Hex as (rest' & -> & Hok').
  apply (pstep_flag true (snd (eff p (bs ++ rest) e))) in Hst; [|exact Hne].
  pose proof (pstep_nonempty _ _ _ _ _ Hst Hne) as Hnn.
  destruct (pstep_delivers _ _ _ _ _ rest' Hst Hok') as (p1 & E & ->); [congruence|].
  unfold new_reader. rewrite E. reflexivity.
Qed.

Lemma parse_complete_end p off p' : fits p [] -> pstep true p (PEnd off) [] p' ->
  parse p [] true = (Ok (Parsed 0 (PEnd off)), p').
Proof.
  intros Hf Hst. rewrite (parse_eff _ _ _ Hf).
  assert (E : eff p [] true = ([], true)).
  { unfold eff. change (zlen (@nil Z)) with 0. destruct (Z.ltb_spec (max_off p - p_offset p) 0); [|reflexivity].
    destruct Hf. lia. }
  rewrite E. cbn [fst snd].
  destruct (pstep_delivers _ _ _ _ _ [] Hst (Forall_nil _) (fun _ => eq_refl)) as (p1 & E1 & ->).
  cbn [app] in E1. unfold new_reader. rewrite E1. reflexivity.
Qed.

(** ** Termination of [parse_all] *)
Lemma nested_two e p pl bs p' : pstep e p pl bs p' -> nested pl -> 2 <= zlen bs.
Proof.
  intros H Hn. inversion H; subst; clear H; try (exfalso; exact Hn).
  match goal with Hh : header_at _ _ _ _ _ |- _ => destruct Hh as (_ & Hu & _) end.
  apply uN_nonempty in Hu. rewrite zlen_cons. destruct lenb; [congruence|].
  rewrite zlen_cons. pose proof (zlen_nonneg lenb). lia.
Qed.

Lemma yields_total_aux k : forall cur st data, inv cur st data ->
  2 * zlen data + zlen st <= Z.of_nat k ->
  exists tr out, yields (mkAll cur st data false) tr out /\ zlen tr <= Z.of_nat k + 1.
Proof.
  induction k as [|k IH]; intros cur st data Hi Hk;
    destruct (parse cur data true) as [[[h|n pl]|er] cur'] eqn:Ep;
    try (exfalso; eapply parse_eof_not_more; [eapply inv_fits; eauto|exact Ep]);
    try (exists [], (Some er); split; [econstructor; unfold all_next; cbn [a_done a_cur a_data a_stack]; rewrite Ep; reflexivity
           |rewrite zlen_nil; lia]);
    pose proof (parse_sound cur data true n pl cur' (inv_fits _ _ _ Hi) (proj1 (proj2 Hi))
                  (proj2 (chain_head _ _ (proj2 (proj2 Hi)))) Ep) as (e' & bs & rest & Ed & En & Hst & _);
    destruct (after_payload cur' st pl) as [[cur'' st'] d] eqn:Ea;
    (destruct d; [exists [pl], None; split;
       [eapply yields_last with (s' := mkAll cur'' st' (skipn (Z.to_nat n) data) true); [unfold all_next; cbn [a_done a_cur a_data a_stack]; rewrite Ep, Ea; reflexivity|reflexivity]
       |rewrite zlen_cons, zlen_nil; lia]|]);
    (assert (Hdec : 2 * zlen (skipn (Z.to_nat n) data) + zlen st' < 2 * zlen data + zlen st);
     [ assert (Hn : 0 <= n <= zlen data)
         by (subst; rewrite zlen_app; pose proof (zlen_nonneg bs); pose proof (zlen_nonneg rest); lia);
       rewrite zlen_skipn by exact Hn;
       assert (Hcase : nested pl \/ is_end pl \/ (~ nested pl /\ ~ is_end pl)) by (destruct pl; cbn; tauto);
       destruct Hcase as [Hc|[Hc|[Hc1 Hc2]]];
       [ pose proof (nested_two _ _ _ _ _ Hst Hc);
         destruct pl; try (exfalso; exact Hc); cbn in Ea; injection Ea as <- <-; rewrite zlen_cons; lia
       | destruct pl; try (exfalso; exact Hc); cbn in Ea; destruct st; [discriminate|]; injection Ea as <- <-; rewrite zlen_cons; lia
       | pose proof (pstep_nonempty _ _ _ _ _ Hst Hc2);
         assert (1 <= zlen bs) by (destruct bs; [congruence|rewrite zlen_cons; pose proof (zlen_nonneg bs); lia]);
         assert (st' = st) by (destruct pl; cbn in *; try tauto; congruence); subst; lia ] |]).
  - exfalso. pose proof (zlen_nonneg (skipn (Z.to_nat n) data)). pose proof (zlen_nonneg st'). lia.
  - pose proof (inv_step _ _ _ _ _ _ _ _ Hi Ep Ea) as [Hi' _].
    destruct (IH _ _ _ Hi') as (tr & out & Hy & Hl); [lia|].
    exists (pl :: tr), out. split; [|rewrite zlen_cons; lia].
    eapply yields_item with (s' := mkAll cur'' st' (skipn (Z.to_nat n) data) false); [|reflexivity|exact Hy].
    unfold all_next. cbn [a_done a_cur a_data a_stack]. rewrite Ep, Ea. reflexivity.
Qed.

Lemma inv_new off data : 0 <= off -> off + zlen data <= U64MAX -> bytes_ok data -> inv (new_parser off) [] data.
Proof.
  intros H1 H2 H3. split; [exact H2|]. split; [exact H3|]. cbn. pose proof (zlen_nonneg data).
  unfold max_off. cbn. repeat split; try lia; intros n [=].
Qed.

Lemma yields_total off data : 0 <= off -> off + zlen data <= U64MAX -> bytes_ok data ->
  exists tr out, yields (parse_all_of (new_parser off) data) tr out /\ zlen tr <= 2 * zlen data + 1.
Proof.
  intros H1 H2 H3. destruct (yields_total_aux (Z.to_nat (2 * zlen data)) (new_parser off) [] data) as (tr & out & Hy & Hl).
  - apply inv_new; auto.
  - rewrite zlen_nil. pose proof (zlen_nonneg data). lia.
  - exists tr, out. split; [exact Hy|]. pose proof (zlen_nonneg data). lia.
Qed.

Lemma yields_fun s tr out : yields s tr out -> forall tr' out', yields s tr' out' -> tr' = tr /\ out' = out.
Proof.
  induction 1 as [s e s' E|s pl s' E Ed|s pl s' tr out E Ed Hy IH]; intros tr' out' H'.
  - inversion H' as [? ? ? E'|? ? ? E' Ed'|? ? ? ? ? E' Ed' Hy']; subst; rewrite E in E'; try discriminate.
    injection E' as -> _. auto.
  - inversion H' as [? ? ? E'|? ? ? E' Ed'|? ? ? ? ? E' Ed' Hy']; subst; rewrite E in E'; try discriminate.
    + injection E' as -> _. auto.
    + injection E' as -> ->. congruence.
  - inversion H' as [? ? ? E'|? ? ? E' Ed'|? ? ? ? ? E' Ed' Hy']; subst; rewrite E in E'; try discriminate.
    + injection E' as -> ->. congruence.
    + injection E' as -> ->. destruct (IH _ _ Hy') as [-> ->]. auto.
Qed.

(** ** Tiling *)
Lemma header_frame p id lenb contents s : header_at p id lenb (zlen contents) s ->
  section_frame (p_offset p) id (s, s + zlen contents) contents (id :: lenb ++ contents).
Proof.
  intros (_ & Hu & -> & _). exists lenb. split; [reflexivity|]. split; [exact Hu|].
  rewrite zlen_cons, zlen_app. f_equal. lia.
Qed.

Lemma pstep_framed e p pl bs p' : pstep e p pl bs p' -> framed (p_offset p) pl bs.
Proof.
  intros H. inversion H; subst; clear H; cbn [framed];
    try (split; reflexivity); try (eapply header_frame; eassumption); try (eexists; eapply header_frame; eassumption).
  - destruct H2 as (_ & Hu & -> & _). exists lenb, cb.
    replace (p_offset p + 1 + zlen lenb + len - (p_offset p + 1 + zlen lenb)) with len by lia. auto 10.
  - exists lenb. rewrite zlen_app, Z.add_assoc. auto.
  - destruct H3 as (_ & Hu & -> & _).
    destruct H2 as [-> | ->]; cbn [Z.eqb Pos.eqb framed]; exists lenb;
      replace (p_offset p + 1 + zlen lenb + len - (p_offset p + 1 + zlen lenb)) with len by lia;
      rewrite zlen_cons, Z.add_assoc; auto.
Qed.

Fixpoint unlimited (cur : parser) (st : list parser) : Prop :=
  match st with [] => p_max_offset cur = None | q :: st' => unlimited q st' end.

Lemma zlen_zero {A} (l : list A) : zlen l <= 0 -> l = [].
Proof. destruct l; [reflexivity|]. rewrite zlen_cons. pose proof (zlen_nonneg l). lia. Qed.

Lemma skipn_zlen_app (a b : list Z) : skipn (Z.to_nat (zlen a)) (a ++ b) = b.
Proof. unfold zlen. rewrite Nat2Z.id, skipn_app, skipn_all, Nat.sub_diag. reflexivity. Qed.

Lemma yields_tiles cur st data tr out :
  yields (mkAll cur st data false) tr out -> inv cur st data -> unlimited cur st ->
  exists d rest, data = d ++ rest /\ tiles_cut (p_offset cur) d tr /\ (out = None -> rest = []).
Proof.
  intros H. remember (mkAll cur st data false) as s eqn:Es.
  revert cur st data Es. induction H as [s e s' E|s pl s' E Ed|s pl s' tr out E Ed Hy IH]; intros cur st data -> Hi Hu.
  - exists [], data. split; [reflexivity|]. split; [constructor|discriminate].
  - unfold all_next in E. cbn [a_done a_cur a_data a_stack] in E.
    destruct (parse cur data true) as [[[h|n pl1]|er] cur'] eqn:Ep; try discriminate.
    destruct (after_payload cur' st pl1) as [[c s1] d] eqn:Ea. injection E as <- <-. cbn in Ed. subst d.
    apply parse_sound in Ep as (e' & bs & rest & -> & -> & Hst & _ & Hend);
      [|eapply inv_fits; eauto|apply Hi|apply (chain_head _ _ (proj2 (proj2 Hi)))].
    destruct pl1; try discriminate Ea. cbn in Ea. destruct st; [|discriminate].
    destruct (pstep_end _ _ _ _ _ Hst I) as [-> ->].
    assert (rest = []) as ->.
    { destruct (Hend eq_refl eq_refl) as [[-> _]|Eo]; [reflexivity|].
      destruct Hi as (Hle & _ & Hch). cbn in Hch. destruct Hch as ([H1 H2] & _).
      cbn in Hu. unfold max_off in Eo. rewrite Hu in Eo. cbn [app] in Hle. apply zlen_zero. lia. }
    exists [], []. split; [reflexivity|]. split; [|auto].
    change (@nil Z) with (@nil Z ++ []). econstructor; [eapply pstep_framed; eauto|]. constructor.
  - unfold all_next in E. cbn [a_done a_cur a_data a_stack] in E.
    destruct (parse cur data true) as [[[h|n pl1]|er] cur'] eqn:Ep; try discriminate.
    destruct (after_payload cur' st pl1) as [[c s1] d] eqn:Ea. injection E as <- <-. cbn in Ed. subst d.
    pose proof (inv_step _ _ _ _ _ _ _ _ Hi Ep Ea) as [Hi' _].
    apply parse_sound in Ep as (e' & bs & rest & -> & -> & Hst & _ & Hend);
      [|eapply inv_fits; eauto|apply Hi|apply (chain_head _ _ (proj2 (proj2 Hi)))].
    rewrite skipn_zlen_app in *.
    pose proof (pstep_framed _ _ _ _ _ Hst) as Hfr.
    pose proof (pstep_frame _ _ _ _ _ Hst) as (Fm & Fo & _).
    assert (Hu' : unlimited c s1).
    { destruct pl1; cbn in Ea; try (injection Ea as <- <-; destruct st; cbn in *; congruence || assumption).
      destruct st; [discriminate|]. injection Ea as <- <-. exact Hu. }
    destruct (IH _ _ _ eq_refl Hi' Hu') as (d & rest' & -> & Ht & Hout).
    assert (Hcase : nested pl1 \/ is_end pl1 \/ (~ nested pl1 /\ ~ is_end pl1)) by (destruct pl1; cbn; tauto).
    destruct Hcase as [Hc|[Hc|[Hc1 Hc2]]].
    + destruct (pstep_nested _ _ _ _ _ Hst Hc) as (s & en & Hpl & Es & _).
      assert (c = child cur s en) as -> by (destruct Hpl as [-> | ->]; cbn in Ea; congruence).
      cbn [child p_offset] in Ht. rewrite Es in Ht.
      exists (bs ++ d), rest'. rewrite app_assoc. split; [reflexivity|]. split; [|exact Hout].
      constructor; assumption.
    + destruct (pstep_end _ _ _ _ _ Hst Hc) as [-> ->]. cbn [app] in *.
      destruct pl1; try (exfalso; exact Hc). cbn in Ea. destruct st as [|q st0]; [discriminate|]. injection Ea as <- <-.
      destruct Hi as (Hle & _ & Hch). cbn in Hch. destruct Hch as ([H1 H2] & _ & Hmo & _).
      unfold max_off in *. rewrite Hmo in *.
      destruct (Hend eq_refl eq_refl) as [[E0 _]|Eo].
      * apply app_eq_nil in E0 as [-> ->]. exists [], []. split; [reflexivity|]. split; [|auto].
        change (@nil Z) with (@nil Z ++ []). constructor; [exact Hfr|]. rewrite zlen_nil, Z.add_0_r.
        apply tc_jump with (pos' := p_offset q); assumption.
      * exists d, rest'. split; [reflexivity|]. split; [|exact Hout].
        change d with ([] ++ d). constructor; [exact Hfr|]. rewrite zlen_nil, Z.add_0_r, Eo. exact Ht.
    + assert (c = cur') as -> by (destruct pl1; cbn in *; try tauto; congruence).
      rewrite (Fo Hc1) in Ht. exists (bs ++ d), rest'. rewrite app_assoc. split; [reflexivity|].
      split; [|exact Hout]. constructor; assumption.
Qed.
