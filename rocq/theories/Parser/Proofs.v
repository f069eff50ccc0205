(** Stability of [parse] under extension of its input. *)
From Verif.Base Require Import Prelude Utf8.
From Verif.Reader Require Import Model Spec Mono.
From Verif.Parser Require Import Model.

Definition honestM {A} (m : M A) : Prop := forall p r,
  match m p r with
  | (Ok (a, r'), p') =>
      (exists bs, consumes r bs r') /\
      forall ext, m p (extend r ext) = (Ok (a, extend r' ext), p')
  | (Err e, p') => e_hint e = None -> forall ext, m p (extend r ext) = (Err e, p')
  end.

(** A failure that asks for more data leaves the parser as it was. *)
Definition quiet {A} (m : M A) : Prop := forall p r e p',
  m p r = (Err e, p') -> is_eof e -> p' = p.

(** Errors never ask for more data. *)
Definition nohint {A} (m : M A) : Prop := forall p r e p',
  m p r = (Err e, p') -> e_hint e = None.

Lemma not_eof_none e : ~ is_eof e -> e_hint e = None.
Proof. unfold is_eof. destruct (e_hint e); [intros H; exfalso; eauto|reflexivity]. Qed.
Lemma none_not_eof e : e_hint e = None -> ~ is_eof e.
Proof. intros H [h Hh]. congruence. Qed.

Lemma honestM_mret {A} (a : A) : honestM (mret a).
Proof. intros p r. cbn. split; [exists []; apply consumes_refl|reflexivity]. Qed.
Lemma honestM_mget : honestM mget.
Proof. intros p r. cbn. split; [exists []; apply consumes_refl|reflexivity]. Qed.
Lemma honestM_mput q : honestM (mput q).
Proof. intros p r. cbn. split; [exists []; apply consumes_refl|reflexivity]. Qed.
Lemma honestM_lift {A} (m : R A) : honest m -> honestM (lift m).
Proof.
  intros H p r. specialize (H r). unfold lift. destruct (m r) as [[a r']|e].
  - destruct H as [Hc He]. split; [exact Hc|]. intros ext. rewrite He. reflexivity.
  - intros Hn. rewrite Hn in H. intros ext. rewrite H. reflexivity.
Qed.
Lemma honestM_bind {A B} (m : M A) (f : A -> M B) :
  honestM m -> (forall a, honestM (f a)) -> honestM (mbind m f).
Proof.
  intros Hm Hf p r. specialize (Hm p r). unfold mbind.
  destruct (m p r) as [[[a r']|e] p'].
  - destruct Hm as ([bs Hc] & Hext). specialize (Hf a p' r').
    destruct (f a p' r') as [[[b r'']|e'] p''].
    + destruct Hf as ([bs' Hc'] & Hext'). split.
      * exists (bs ++ bs'). eapply consumes_trans; eauto.
      * intros ext. rewrite Hext. apply Hext'.
    + intros Hn ext. rewrite Hext. apply Hf, Hn.
  - intros Hn ext. rewrite (Hm Hn). reflexivity.
Qed.
Lemma honestM_if {A} (b : bool) (m1 m2 : M A) : honestM m1 -> honestM m2 -> honestM (if b then m1 else m2).
Proof. destruct b; auto. Qed.
Lemma honestM_update_order o s : honestM (update_order o s).
Proof.
  intros p r. unfold update_order. destruct (p_order p) as [lo lp].
  destruct (_ && _); cbn; [reflexivity|].
  split; [exists []; apply consumes_refl|reflexivity].
Qed.
Lemma honestM_mcheck f pos : honestM (mcheck f pos).
Proof.
  intros p r. unfold mcheck. destruct (f (p_counts p) pos); cbn; [|reflexivity].
  split; [exists []; apply consumes_refl|reflexivity].
Qed.

Lemma quiet_lift {A} (m : R A) : quiet (lift m).
Proof. intros p r e p'. unfold lift. intros [= _ <-] _. reflexivity. Qed.
Lemma quiet_mret {A} (a : A) : quiet (mret a).
Proof. intros p r e p'. discriminate. Qed.
Lemma quiet_if {A} (b : bool) (m1 m2 : M A) : quiet m1 -> quiet m2 -> quiet (if b then m1 else m2).
Proof. destruct b; auto. Qed.
Lemma quiet_nohint {A} (m : M A) : nohint m -> quiet m.
Proof. intros H p r e p' E He. apply H in E. exfalso. eapply none_not_eof; eauto. Qed.
(** Pure reads followed by anything quiet. *)
Lemma quiet_bind_lift {A B} (m : R A) (f : A -> M B) :
  (forall a, quiet (f a)) -> quiet (mbind (lift m) f).
Proof.
  intros Hf p r e p'. unfold mbind, lift. destruct (m r) as [[a r']|e'].
  - apply Hf.
  - intros [= _ <-] _. reflexivity.
Qed.
Lemma quiet_bind_mget {B} (f : parser -> M B) :
  (forall a, quiet (f a)) -> quiet (mbind mget f).
Proof. intros Hf p r e p'. unfold mbind, mget. apply Hf. Qed.
Lemma nohint_mret {A} (a : A) : nohint (mret a).
Proof. intros p r e p'. discriminate. Qed.
Lemma nohint_mput a : nohint (mput a).
Proof. intros p r e p'. discriminate. Qed.
Lemma nohint_mget : nohint mget.
Proof. intros p r e p'. discriminate. Qed.
Lemma nohint_get_pos : nohint (lift get_pos).
Proof. intros p r e p'. discriminate. Qed.
Lemma nohint_bind {A B} (m : M A) (f : A -> M B) :
  nohint m -> (forall a, nohint (f a)) -> nohint (mbind m f).
Proof.
  intros Hm Hf p r e p'. unfold mbind. destruct (m p r) as [[[a r']|e'] p''] eqn:E.
  - apply Hf.
  - intros [= <- <-]. eapply Hm; eauto.
Qed.
Lemma check_function_code_counts_nohint c pos e :
  check_function_code_counts c pos = Err e -> e_hint e = None.
Proof.
  unfold check_function_code_counts.
  destruct (function_entries c), (code_entries c); try destruct (negb _); try destruct (_ <? _);
    intros [= <-]; reflexivity.
Qed.
Lemma check_data_count_nohint c pos e :
  check_data_count c pos = Err e -> e_hint e = None.
Proof.
  unfold check_data_count.
  destruct (data_count c), (data_entries c); try destruct (negb _); try destruct (_ <? _);
    intros [= <-]; reflexivity.
Qed.
Lemma nohint_check_fc pos : nohint (mcheck check_function_code_counts pos).
Proof.
  intros p r e p'. unfold mcheck. destruct (check_function_code_counts _ _) eqn:E; [discriminate|].
  intros [= <- _]. eapply check_function_code_counts_nohint; eauto.
Qed.
Lemma nohint_check_dc pos : nohint (mcheck check_data_count pos).
Proof.
  intros p r e p'. unfold mcheck. destruct (check_data_count _ _) eqn:E; [discriminate|].
  intros [= <- _]. eapply check_data_count_nohint; eauto.
Qed.

Lemma honest_section len ctor : honest (section len ctor).
Proof.
  intros r. unfold section. pose proof (honest_skip_bytes len r) as H.
  destruct (skip_bytes len r) as [[c r']|e].
  - destruct H as [Hc He]. destruct (map_err_nohint (ctor c)) eqn:E.
    + split; [exact Hc|]. intros ext. rewrite He, E. reflexivity.
    + destruct (ctor c) eqn:Ec; cbn in E; [discriminate|]. injection E as <-. cbn.
      intros ext. rewrite He, Ec. reflexivity.
  - destruct (e_hint e) eqn:E.
    + destruct H as [Hp H]. split; [exact Hp|]. intros ext Hl.
      destruct (H ext Hl) as (e' & -> & He'). eauto.
    + intros ext. rewrite H. reflexivity.
Qed.

Lemma honest_single_item {T} (item : R T) se d : honest (single_item item se d).
Proof.
  intros r. unfold single_item. set (n := wrapu 32 _).
  pose proof (honest_skip_bytes n r) as H.
  destruct (skip_bytes n r) as [[c r']|e].
  - destruct H as [Hc He]. destruct (map_err_nohint (item c)) as [[v c']|e'] eqn:E.
    + destruct (negb (eof c')) eqn:E2.
      * cbn. intros ext. unfold n in He. cbv zeta. rewrite extend_pos, He, E, E2. reflexivity.
      * split; [exact Hc|]. intros ext. unfold n in He. rewrite extend_pos, He, E, E2. reflexivity.
    + destruct (item c) as [[? ?]|] eqn:Ec; cbn in E; [discriminate|]. injection E as <-. cbn.
      intros ext. unfold n in He. rewrite extend_pos, He, Ec. reflexivity.
  - destruct (e_hint e) eqn:E.
    + destruct H as [Hp H]. split; [exact Hp|]. intros ext Hl.
      destruct (H ext Hl) as (e' & H' & He'). unfold n in H'. rewrite extend_pos, H'. eauto.
    + intros ext. unfold n in H. rewrite extend_pos, H. reflexivity.
Qed.

Lemma honest_delimited {T} len (f : R T) : honest f -> honest (delimited len f).
Proof.
  intros Hf r. specialize (Hf r). unfold delimited.
  destruct (f r) as [[v r']|e].
  - destruct Hf as [Hc He].
    destruct (0 <=? _) eqn:E.
    + split; [exact Hc|]. intros ext. rewrite He, !extend_pos, E. reflexivity.
    + cbn. intros ext. rewrite He, !extend_pos, E. reflexivity.
  - destruct (e_hint e) eqn:E.
    + destruct Hf as [Hp H]. split; [exact Hp|]. intros ext Hl.
      destruct (H ext Hl) as (e' & -> & He'). eauto.
    + intros ext. rewrite Hf. reflexivity.
Qed.

Lemma honest_read_header_version : honest read_header_version.
Proof.
  apply honest_bind; [apply honest_read_bytes|]. intros m.
  apply honest_if; [apply honest_read_u32|apply honest_fail_at].
Qed.

Create HintDb honest.
#[export] Hint Resolve honest_section honest_single_item honest_delimited honest_read_var_u32
  honest_read_reader honest_read_bytes honest_get_pos honest_fail_at honest_fail_pos
  honest_read_u8 honest_read_header_version
  honestM_mret honestM_mget honestM_mput honestM_update_order honestM_mcheck : honest.

Ltac hm :=
  repeat (first
    [ apply honestM_bind; [|intros ?; try match goal with |- context [let '(_, _) := ?a in _] => destruct a end]
    | apply honestM_if | solve [auto with honest] | apply honestM_lift; auto with honest ]).

Lemma honestM_ordered_limited o id len s : honestM (ordered_limited o id len s).
Proof. unfold ordered_limited. hm. Qed.
#[export] Hint Resolve honestM_ordered_limited : honest.

Lemma honestM_module_section id len s e : honestM (parse_module_section id len s e).
Proof. unfold parse_module_section. hm. Qed.
Lemma honestM_component_section id len lp s e : honestM (parse_component_section id len lp s e).
Proof. unfold parse_component_section. hm. Qed.
#[export] Hint Resolve honestM_module_section honestM_component_section : honest.

Lemma honestM_parse_section : honestM parse_section.
Proof.
  unfold parse_section. hm. destruct (p_enc _); auto with honest.
Qed.

Lemma honestM_parse_body n l : honestM (parse_body n l).
Proof. unfold parse_body. hm. Qed.

Lemma honestM_parse_header : honestM parse_header.
Proof.
  intros p r. unfold parse_header. pose proof (honest_read_header_version r) as H.
  destruct (read_header_version r) as [[v r']|e].
  - destruct H as [Hc He].
    destruct (header_encoding _ _) as [en|] eqn:E.
    + split; [exact Hc|]. intros ext. rewrite He, E, !extend_pos. reflexivity.
    + cbn. intros _ ext. rewrite He, E, !extend_pos. reflexivity.
  - intros Hn. rewrite Hn in H. intros ext. rewrite H. reflexivity.
Qed.

Lemma quiet_parse_body n l : quiet (parse_body n l).
Proof.
  unfold parse_body. apply quiet_bind_lift. intros [b len].
  apply quiet_bind_mget. intros p. apply quiet_nohint.
  apply nohint_bind; [apply nohint_mput|]. intros _. apply nohint_mret.
Qed.
Lemma quiet_parse_header : quiet parse_header.
Proof.
  intros p r e p'. unfold parse_header. destruct (read_header_version r) as [[v r']|e'].
  - destruct (header_encoding _ _); [discriminate|]. intros [= _ <-] _. reflexivity.
  - intros [= _ <-] _. reflexivity.
Qed.

(** Running again after a request for more data. *)
Definition retryM {A} (m : M A) : Prop := forall p r e p',
  m p r = (Err e, p') -> is_eof e -> forall ext, m p' (extend r ext) = m p (extend r ext).

Lemma retry_quiet {A} (m : M A) : quiet m -> retryM m.
Proof. intros Hq p r e p' E He ext. rewrite (Hq _ _ _ _ E He). reflexivity. Qed.

Lemma retry_if {A} (b : bool) (m1 m2 : M A) : retryM m1 -> retryM m2 -> retryM (if b then m1 else m2).
Proof. destruct b; auto. Qed.

Lemma retry_ordered {A} o s (k : M A) : quiet k -> retryM (do _ <- update_order o s; k).
Proof.
  intros Hq p r e p'. unfold mbind at 1. unfold update_order at 1.
  destruct (p_order p) as [lo lp] eqn:Eo.
  destruct (encoding_eqb (p_enc p) EModule && ((o <=? lo) && (lp <? s))) eqn:E.
  - intros [= <- _] [h Hh]. discriminate.
  - intros Hk He ext. pose proof (Hq _ _ _ _ Hk He). subst p'.
    unfold mbind, update_order. rewrite Eo, E. cbn [set_order p_order p_enc].
    rewrite Z.ltb_irrefl, !andb_false_r. reflexivity.
Qed.

Ltac qt_step :=
  lazymatch goal with
  | |- quiet (if _ then _ else _) => apply quiet_if
  | |- quiet (let '(_, _) := ?a in _) => destruct a
  | |- quiet (lift _) => apply quiet_lift
  | |- quiet (mret _) => apply quiet_mret
  | |- quiet (mbind (lift _) _) => apply quiet_bind_lift; intros ?
  | |- quiet (mbind mget _) => apply quiet_bind_mget; intros ?
  | |- quiet (mbind (mput _) _) => apply quiet_nohint
  | |- quiet (mbind (mcheck _ _) _) => apply quiet_nohint
  | |- nohint (mbind _ _) => apply nohint_bind; [|intros ?]
  | |- nohint (mret _) => apply nohint_mret
  | |- nohint (mput _) => apply nohint_mput
  | |- nohint mget => apply nohint_mget
  | |- nohint (lift get_pos) => apply nohint_get_pos
  | |- nohint (mcheck check_function_code_counts _) => apply nohint_check_fc
  | |- nohint (mcheck check_data_count _) => apply nohint_check_dc
  end.
Ltac qt := repeat (cbv beta zeta; qt_step).

Ltac rt := repeat (cbv beta zeta; lazymatch goal with
  | |- retryM (if _ then _ else _) => apply retry_if
  | |- retryM (mbind (update_order _ _) _) => apply retry_ordered; qt
  | |- retryM _ => apply retry_quiet; qt
  end).

Lemma retry_module_section id len s e : retryM (parse_module_section id len s e).
Proof.
  unfold parse_module_section, ordered_limited.
  rt.
Qed.

Definition starts_seen (p : parser) : bool := component_start_sections (p_counts p).

(** In a component the retry is exact unless the interrupted section was a start
    section, whose flag is set before its bytes are known to be there. *)
Lemma component_section_quiet id len lp s e p r er p' :
  parse_component_section id len lp s e p r = (Err er, p') -> is_eof er ->
  p' = p \/ (id = 9 /\ starts_seen p = false /\ starts_seen p' = true).
Proof.
  unfold parse_component_section.
  destruct ((id =? 1) || (id =? 4)).
  { intros H He. left. revert H He.
    match goal with |- ?m p r = _ -> _ => assert (Hq : quiet m) by qt end. apply Hq. }
  destruct (_ || _).
  { intros H He. left. revert H He. apply quiet_lift. }
  destruct (Z.eqb_spec id 9).
  2:{ intros H He. left. revert H He.
      match goal with |- ?m p r = _ -> _ => assert (Hq : quiet m) by qt end. apply Hq. }
  unfold mbind at 1, mget. fold (starts_seen p). destruct (starts_seen p) eqn:Es.
  { unfold lift, fail_at. intros [= <- _] [h Hh]. discriminate. }
  intros H He. right. split; [assumption|]. split; [reflexivity|].
  unfold mbind at 1, mput in H. unfold mbind, lift in H.
  destruct (single_item _ _ _ r) as [[[a b] r']|]; [discriminate|].
  injection H as _ <-. reflexivity.
Qed.

Lemma parse_section_retry p r er p' :
  parse_section p r = (Err er, p') -> is_eof er -> starts_seen p' = starts_seen p ->
  forall ext, parse_section p' (extend r ext) = parse_section p (extend r ext).
Proof.
  unfold parse_section. cbn [mbind lift get_pos].
  unfold mbind, lift, get_pos, mget.
  pose proof (honest_read_u8 r) as H8.
  destruct (read_u8 r) as [[id r1]|e8].
  2:{ intros [= _ <-] _ _ ext. reflexivity. }
  destruct H8 as [_ H8].
  destruct (negb (Z.land id 128 =? 0)) eqn:Eid.
  { intros [= <- _] [h Hh]. discriminate. }
  pose proof (honest_read_var_u32 r1) as Hv.
  destruct (read_var_u32 r1) as [[len r2]|ev].
  2:{ intros [= _ <-] _ _ ext. reflexivity. }
  destruct Hv as [_ Hv].
  set (ss := original_position r2). set (se := ss + len).
  destruct ((U64MAX <? se) || (max_off p <? se)) eqn:Esz.
  { intros [= <- _] [h Hh]. discriminate. }
  intros Hrun He Hss ext. rewrite !H8, Eid, !Hv, !extend_pos. fold ss. fold se.
  destruct (Z.eqb_spec id 0).
  { destruct (section len custom_new r2) as [[? ?]|]; [discriminate|].
    injection Hrun as _ <-. reflexivity. }
  destruct (p_enc p) eqn:Een.
  - assert (Hp : p_enc p' = p_enc p /\ p_max_offset p' = p_max_offset p).
    { revert Hrun He. clear. unfold parse_module_section, ordered_limited.
      intros Hrun He.
      assert (Haux : forall (m : M payload), quiet m -> forall o,
        (do _ <- update_order o ss; m) p r2 = (Err er, p') ->
        p_enc p' = p_enc p /\ p_max_offset p' = p_max_offset p).
      { intros m Hq o. unfold mbind, update_order. destruct (p_order p).
        destruct (_ && _); [intros [= <- _]; destruct He as [h Hh]; discriminate|].
        intros Hm. pose proof (Hq _ _ _ _ Hm He). subst p'. split; reflexivity. }
      assert (Haux2 : forall (m : M payload), quiet m -> 
        m p r2 = (Err er, p') -> p_enc p' = p_enc p /\ p_max_offset p' = p_max_offset p).
      { intros m Hq Hm. pose proof (Hq _ _ _ _ Hm He). subst p'. split; reflexivity. }
      repeat match type of Hrun with (if ?b then _ else _) _ _ = _ => destruct b end;
        lazymatch type of Hrun with
        | mbind (update_order _ _) _ _ _ = _ => eapply Haux; [|exact Hrun]; qt
        | _ => eapply Haux2; [|exact Hrun]; qt
        end. }
    destruct Hp as [Hpe Hpm].
    assert (Hmx : max_off p' = max_off p) by (unfold max_off; rewrite Hpm; reflexivity).
    rewrite Hmx, Esz, Hpe, Een.
    exact (retry_module_section _ _ _ _ _ _ _ _ Hrun He ext).
  - destruct (component_section_quiet _ _ _ _ _ _ _ _ _ Hrun He) as [->|(_ & Ha & Hb)].
    + rewrite Esz, Een. reflexivity.
    + congruence.
Qed.
