(** What becomes of the data of the metadata, and what a reader of the producers finds. *)
From Verif.Base Require Import Prelude Utf8.
From Verif.Reader Require Import Model Spec.
From Verif.Leb Require Import Spec Model Proofs ReaderProofs Top.
From Verif.Encoder Require Import Model.
From Verif.Types Require Import RefModel CodecModel EntityModel.
From Verif.Sections Require Import SeeModel NameModel.
From Verif.Parser Require Import Model Proofs Spec Stream Shape Chunks Complete Tiling Module Forward Encoded.
From Verif.Meta Require Import Model Spec Doc DocWrite DocCanon RewriteProofs EditProofs Final ProducersProofs NamesProofs.
From Coq Require Import Lia.

(** * Bytes *)
Lemma slice_bytes data s e : bytes_ok data -> bytes_ok (slice data s e).
Proof.
  intros H. unfold slice, bytes_ok in *. rewrite Forall_forall in *. intros x Hx. apply H.
  assert (Hi : In x (skipn (Z.to_nat s) data)).
  { rewrite <- (firstn_skipn (Z.to_nat (e - s))). apply in_or_app. left. exact Hx. }
  rewrite <- (firstn_skipn (Z.to_nat s)). apply in_or_app. right. exact Hi.
Qed.
Lemma reported_bytes data items tr : reported data items tr -> bytes_ok data -> forall id c, In (Sec id c) items -> bytes_ok c.
Proof.
  induction 1 as [|pl id s e items tr Has Hn H IH|rg b items tr H IH|pl id q rg num e rg' sub tr1 off items tr2 Hk H1 IH1 H2 IH2]; intros Hb i c Hin.
  - destruct Hin.
  - destruct Hin as [E|Hin]; [injection E as <- <-; apply slice_bytes, Hb|eauto].
  - eauto.
  - destruct Hin as [E|Hin]; [discriminate|eauto].
Qed.
Lemma custom_bytes name d c : custom name d c -> bytes_ok c -> bytes_ok d.
Proof. intros (nb & _ & ->) H. apply bytes_ok_app in H as (_ & H). apply bytes_ok_app in H as (_ & H). exact H. Qed.
Lemma custom_short name d c b : custom name d c -> encode_bytes c = Some b -> zlen d < 2 ^ 32.
Proof.
  intros (nb & _ & ->) E. unfold encode_bytes, encode_usize in E. destruct (Z.leb_spec (zlen (nb ++ name ++ d)) (2 ^ 32 - 1)) as [Hl|]; [|discriminate].
  rewrite !zlen_app in Hl. pose proof (zlen_nonneg nb). pose proof (zlen_nonneg name). lia.
Qed.

(** * The effect *)
Lemma data_effect_effect tp m add name d r : bytes_ok d -> data_effect tp m add name d = Some r -> (forall d', r = Some d' -> zlen d' < 2 ^ 32) -> effect tp m add name d r.
Proof.
  intros Hb E Hl. unfold effect. split; [|split; [|split]].
  - intros ->. unfold data_effect in E. rewrite same_refl in E. cbn [andb] in E. destruct (has_count d) eqn:Ec.
    + right. split; [reflexivity|]. destruct (producers_from_bytes d) as [p|] eqn:Ep; [|discriminate]. destruct (producers_data (p_merge p add)) as [d'|] eqn:Ed; [|discriminate].
      injection E as <-. exists p, d'. split; [reflexivity|]. split; [reflexivity|]. intros Ha. apply (producers_merged d p add d'); auto.
    + left. split; [reflexivity|]. change (same (lit "producers") (lit "name")) with false in E. change (same (lit "producers") (lit "component-name")) with false in E.
      change (find_oci (lit "producers")) with (@None oci) in E. congruence.
  - intros ->. unfold data_effect in E. change (same (lit "name") (lit "producers")) with false in E. cbn [andb] in E. rewrite same_refl in E.
    destruct (module_names_from_bytes d) as [n|] eqn:En; [|discriminate].
    destruct (am_name m) as [| |v].
    + destruct (module_names_data n) as [d'|] eqn:Ed; [|discriminate]. injection E as <-. exists d'. split; [reflexivity|].
      destruct (module_names_kept d n [] d' false Hb En Ed) as (l & H1 & _ & H2). exists l. split; [exact H1|]. apply H2. reflexivity.
    + injection E as <-. exists []. auto.
    + destruct (module_names_data (mn_set n v)) as [d'|] eqn:Ed; [|discriminate]. injection E as <-. exists d'. split; [reflexivity|].
      destruct (module_names_kept d n v d' true Hb En Ed) as (l & H1 & H2 & _). exists l. split; [exact H1|]. apply H2. reflexivity.
  - intros ->. unfold data_effect in E. change (same (lit "component-name") (lit "producers")) with false in E. cbn [andb] in E.
    change (same (lit "component-name") (lit "name")) with false in E. cbv iota in E. rewrite same_refl in E.
    destruct (component_names_from_bytes d) as [n|] eqn:En; [|discriminate].
    destruct (am_name m) as [| |v].
    + destruct (component_names_data n) as [d'|] eqn:Ed; [|discriminate]. injection E as <-. exists d'. split; [reflexivity|].
      destruct (component_names_kept d n [] d' false Hb En Ed) as (l & H1 & _ & H2). exists l. split; [exact H1|]. apply H2. reflexivity.
    + injection E as <-. exists []. auto.
    + destruct (component_names_data (cn_set n v)) as [d'|] eqn:Ed; [|discriminate]. injection E as <-. exists d'. split; [reflexivity|].
      destruct (component_names_kept d n v d' true Hb En Ed) as (l & H1 & H2 & _). exists l. split; [exact H1|]. apply H2. reflexivity.
  - intros o ->. unfold data_effect in E.
    assert (E1 : same (oci_name o) (lit "producers") = false) by (destruct o; reflexivity). assert (E2 : same (oci_name o) (lit "name") = false) by (destruct o; reflexivity).
    assert (E3 : same (oci_name o) (lit "component-name") = false) by (destruct o; reflexivity). assert (E4 : find_oci (oci_name o) = Some o) by (destruct o; reflexivity).
    rewrite E1, E2, E3, E4 in E. cbn [andb] in E. destruct (am_oci m o).
    + destruct (oci_reparse tp o d) as [d'|] eqn:Er; [|discriminate]. injection E as <-. exists d'. split; [reflexivity|]. unfold oci_reparse in Er.
      destruct (utf8_valid d); [|discriminate]. split; [reflexivity|]. destruct o; congruence.
    + congruence.
    + congruence.
Qed.
Lemma edited_effect tp m add items items' : edited (Rd tp m add) items items' -> (forall id c, In (Sec id c) items -> bytes_ok c) -> forall cb, canon items' cb ->
  edited (effect tp m add) items items'.
Proof.
  induction 1 as [|i before after Hn H IH|name d c d' c' before after Hin Hc Hc' Hr H IH|name d c before after Hin Hc Hr H IH]; intros Hb cb Hca.
  - constructor.
  - inversion Hca; subst; (apply ed_other; [exact Hn|]; eapply IH; [|eassumption]; intros; eapply Hb; right; eassumption).
  - inversion Hca as [|id' c'' b items'' bs' Eb Hca'|]; subst. eapply ed_metadata; [exact Hin|exact Hc|exact Hc'| |].
    + apply data_effect_effect; [|exact Hr|intros d'' [= <-]; eapply custom_short; eauto]. eapply custom_bytes; [exact Hc|]. apply (Hb 0). left. reflexivity.
    + eapply IH; [|eassumption]. intros; eapply Hb; right; eassumption.
  - eapply ed_gone; [exact Hin|exact Hc| |].
    + apply data_effect_effect; [|exact Hr|discriminate]. eapply custom_bytes; [exact Hc|]. apply (Hb 0). left. reflexivity.
    + eapply IH; [|eassumption]. intros; eapply Hb; right; eassumption.
Qed.
Lemma customs_short l items : customs l items -> forall cb, canon items cb -> Forall (fun x => zlen (snd x) < 2 ^ 32) l.
Proof.
  induction 1 as [|name d c l items Hin Hc H IH]; intros cb Hca; [constructor|]. inversion Hca as [|id' c'' b items'' bs' Eb Hca'|]; subst.
  constructor; [cbn; eapply custom_short; eauto|eauto].
Qed.
Lemma added_appended m add e items l : added m add e items l -> Forall (fun x => zlen (snd x) < 2 ^ 32) l -> appended m add e items l.
Proof.
  intros (b1 & b2 & ns & ps & H1 & H2 & -> & En & Ep) Hl. apply Forall_app in Hl as (Hl1 & Hl). apply Forall_app in Hl as (Hl2 & _).
  exists ns, ps. split; [reflexivity|]. split.
  - unfold added_names in En. destruct b2.
    + destruct ns; [|discriminate]. left. split; [reflexivity|]. left. apply H2. reflexivity.
    + assert (~ has_names items) by (intros X; apply H2 in X; discriminate). destruct (am_name m) as [| |v].
      * destruct ns; [|discriminate]. left. auto.
      * destruct ns; [|discriminate]. left. auto.
      * right. split; [assumption|]. destruct ns as [|[nm d] [|]]; try discriminate; cbn [map fst snd opt_list] in En.
        injection En as En. exists v, d. split; [reflexivity|]. destruct e; injection En as <- Ed; (split; [reflexivity|]); intros Hv.
        -- apply module_name_new; auto.
        -- apply component_name_new; auto.
  - unfold added_producers in Ep. destruct b1.
    + destruct ps; [|discriminate]. left. split; [reflexivity|]. left. apply H1. reflexivity.
    + assert (~ has_producers items) by (intros X; apply H1 in X; discriminate). destruct add as [|f add]; [destruct ps; [|discriminate]; left; auto|].
      right. split; [assumption|]. split; [discriminate|]. destruct ps as [|[nm d] [|]]; try discriminate; cbn [map fst snd opt_list] in Ep. injection Ep as <- Ed.
      exists d. split; [reflexivity|]. intros Ha. apply Forall_cons_iff in Hl2 as (Hl2 & _). apply producers_new; auto.
Qed.

(** * What [from_wasm] finds *)
Definition no_customs (tr : list payload) (depth : Z) : Prop := forall k, producers_from_wasm depth (tr ++ k) = producers_from_wasm depth k.
Lemma from_wasm_entries pos bs pls depth k : code_entries_at pos bs pls -> producers_from_wasm depth (pls ++ k) = producers_from_wasm depth k.
Proof. induction 1; cbn [app producers_from_wasm]; auto. Qed.
Lemma from_wasm_other pl depth k id rg : as_section pl = Some (id, rg) -> ~ nested pl -> (forall r b n d, pl <> PCustom r b n d) -> producers_from_wasm depth (pl :: k) = producers_from_wasm depth k.
Proof. intros H1 H2 H3. destruct pl; cbn in *; try reflexivity; try tauto; try discriminate. exfalso. eapply H3. reflexivity. Qed.
Lemma nested_not_custom id q rg r b n d : nested_payload id q rg <> PCustom r b n d.
Proof. unfold nested_payload. destruct (id =? 1); discriminate. Qed.
Lemma from_wasm_nested x p items tr bs p' : holds x p items tr bs p' -> forall depth k, 0 < depth -> producers_from_wasm depth (tr ++ k) = producers_from_wasm depth k.
Proof.
  induction 1 as [p|p pl id lenb c p1 items tr bs p' Hst Hu Has Hn Hc Hl H IH|p lenb cb ents ebs p1 items tr bs p' Hst Hu Hce Hl H IH
    |p id lenb len s p1 num e rg c1 sub tr1 bs1 c2 c3 items tr2 bs2 p' Hid Hs Hu Hst Ho Hlim Hv H8 H1 IH1 He Hx H2 IH2]; intros depth k Hd.
  - reflexivity.
  - cbn [app]. rewrite <- (IH depth k Hd). destruct pl; cbn in Has, Hn |- *; try reflexivity; try tauto; try discriminate.
    destruct (Z.eqb_spec depth 0); [lia|reflexivity].
  - cbn [app producers_from_wasm]. rewrite <- app_assoc, (from_wasm_entries _ _ _ _ _ Hce). auto.
  - unfold nested_payload. destruct (id =? 1); cbn [app producers_from_wasm]; rewrite <- app_assoc, (IH1 (depth + 1)) by lia; cbn [app producers_from_wasm];
      replace (depth + 1 - 1) with depth by lia; auto.
Qed.
Lemma not_has_cons i items : ~ has_producers items -> (forall d c, i = Sec 0 c -> custom (lit "producers") d c -> has_count d = true -> False) -> ~ has_producers (i :: items).
Proof. intros H Hi (d & c & [E|Hin] & Hc & Hk); [eauto|]. apply H. exists d, c. auto. Qed.
Lemma has_cons i items : ~ has_producers (i :: items) -> ~ has_producers items.
Proof. intros H (d & c & Hin & X). apply H. exists d, c. split; [right; exact Hin|exact X]. Qed.
Lemma first_cons i items d : first_producers (i :: items) d ->
  (exists c, i = Sec 0 c /\ custom (lit "producers") d c /\ has_count d = true) \/
  (first_producers items d /\ forall d' c, i = Sec 0 c -> custom (lit "producers") d' c -> has_count d' = true -> False).
Proof.
  intros (a & c & b & E & Ha & Hc & Hk). destruct a as [|i' a]; cbn [app] in E; injection E as -> ->; [left; eauto|]. right. split.
  - exists a, c, b. split; [reflexivity|]. split; [eapply has_cons; eauto|auto].
  - intros d' c' -> Hc' Hk'. apply Ha. exists d', c'. split; [left; reflexivity|auto].
Qed.
Theorem from_wasm_top x p items tr bs p' : holds x p items tr bs p' -> forall k,
  (forall d, first_producers items d -> producers_from_wasm 0 (tr ++ k) = option_map Some (producers_from_bytes d)) /\
  (~ has_producers items -> producers_from_wasm 0 (tr ++ k) = producers_from_wasm 0 k).
Proof.
  induction 1 as [p|p pl id lenb c p1 items tr bs p' Hst Hu Has Hn Hc Hl H IH|p lenb cb ents ebs p1 items tr bs p' Hst Hu Hce Hl H IH
    |p id lenb len s p1 num e rg c1 sub tr1 bs1 c2 c3 items tr2 bs2 p' Hid Hs Hu Hst Ho Hlim Hv H8 H1 IH1 He Hx H2 IH2]; intros k.
  - split; [|reflexivity]. intros d (a & c & b & E & _). destruct a; discriminate.
  - specialize (IH k) as (IHa & IHb). cbn [app]. pose proof (conj Hst (conj Hu (conj Has (conj Hn Hc))) : section_step p pl id lenb c p1) as Hss.
    destruct (Z.eqb_spec id 0) as [->|Hid].
    + destruct (section_zero _ _ _ _ _ Hss) as (rg & name & d0 & -> & Hcu & _). cbn [producers_from_wasm]. change (0 =? 0) with true. cbn [andb].
      destruct (same name (lit "producers") && has_count d0) eqn:Ec.
      * apply andb_true_iff in Ec as (Ec1 & Ec2). apply same_eq in Ec1. subst name. split.
        -- intros d Hf. destruct (first_cons _ _ _ Hf) as [(c' & E & Hc' & _)|(_ & Hno)]; [|exfalso; eapply Hno; eauto].
           injection E as <-. destruct (custom_fun _ _ _ _ _ Hcu Hc') as (_ & <-). reflexivity.
        -- intros Hno. exfalso. apply Hno. exists d0, c. split; [left; reflexivity|auto].
      * split.
        -- intros d Hf. destruct (first_cons _ _ _ Hf) as [(c' & E & Hc' & Hk)|(Hf' & _)]; [|auto].
           injection E as <-. destruct (custom_fun _ _ _ _ _ Hcu Hc') as (-> & ->). rewrite same_refl, Hk in Ec. discriminate.
        -- intros Hno. apply IHb. eapply has_cons; eauto.
    + rewrite (from_wasm_other _ _ _ _ _ Has Hn); [|intros r b n d ->; cbn in Has; congruence]. split.
      * intros d Hf. destruct (first_cons _ _ _ Hf) as [(c' & E & _)|(Hf' & _)]; [congruence|auto].
      * intros Hno. apply IHb. eapply has_cons; eauto.
  - specialize (IH k) as (IHa & IHb). cbn [app producers_from_wasm]. rewrite <- app_assoc, (from_wasm_entries _ _ _ _ _ Hce). split.
    + intros d Hf. destruct (first_cons _ _ _ Hf) as [(c' & E & _)|(Hf' & _)]; [congruence|auto].
    + intros Hno. apply IHb. eapply has_cons; eauto.
  - specialize (IH2 k) as (IHa & IHb).
    assert (E : producers_from_wasm 0 ((nested_payload id (child p s (s + len)) (s, s + len) :: PVersion num e rg :: tr1 ++ PEnd (p_offset c2) :: tr2) ++ k) = producers_from_wasm 0 (tr2 ++ k)).
    { unfold nested_payload. destruct (id =? 1); cbn [app producers_from_wasm]; rewrite <- app_assoc, (from_wasm_nested _ _ _ _ _ _ H1 (0 + 1)) by lia; reflexivity. }
    rewrite E. split.
    + intros d Hf. destruct (first_cons _ _ _ Hf) as [(c' & E' & _)|(Hf' & _)]; [congruence|auto].
    + intros Hno. apply IHb. eapply has_cons; eauto.
Qed.
Theorem from_wasm_first data tr e items : bytes_ok data -> zlen data <= U64MAX -> yields (parse_all_of (new_parser 0) data) tr None -> is_document data e items ->
  (forall d, first_producers items d -> producers_from_wasm 0 tr = option_map Some (producers_from_bytes d)) /\
  (~ has_producers items -> producers_from_wasm 0 tr = Some None).
Proof.
  intros Hb Hl Hy Hd. destruct (document_found _ _ Hb Hl Hy) as (num & e0 & rg & tr1 & items0 & bs & p1 & p2 & p3 & -> & -> & Hst & Hh & He).
  destruct (document_unique _ _ _ _ _ Hd (held_document _ _ _ _ _ _ _ _ _ _ eq_refl Hy Hst Hh)) as (<- & <-).
  cbn [producers_from_wasm]. exact (from_wasm_top _ _ _ _ _ _ Hh _).
Qed.

(** * Merged producers are read *)
Lemma count_of_read d p : producers_from_bytes d = Some p -> has_count d = true.
Proof.
  unfold producers_from_bytes, has_count, section_items, read_items, bind, new_reader. destruct (read_var_u32 _); [reflexivity|discriminate].
Qed.
Lemma edited_none tp m add items items' : edited (effect tp m add) items items' -> ~ has_producers items -> ~ has_producers items'.
Proof.
  induction 1 as [|i before after Hn H IH|name d c d' c' before after Hin Hc Hc' (Hr & _) H IH|name d c before after Hin Hc Hr H IH]; intros Hno.
  - exact Hno.
  - apply not_has_cons; [apply IH; eapply has_cons; eauto|]. intros d c -> Hc Hk. apply Hno. exists d, c. split; [left; reflexivity|auto].
  - apply not_has_cons; [apply IH; eapply has_cons; eauto|]. intros d0 c0 [= <-] Hc0 Hk. destruct (custom_fun _ _ _ _ _ Hc' Hc0) as (-> & <-).
    destruct (Hr eq_refl) as [(Ec & [= <-])|(Ec & _)]; [congruence|]. apply Hno. exists d, c. split; [left; reflexivity|auto].
  - apply IH. eapply has_cons; eauto.
Qed.
Lemma edited_first tp m add items items' : edited (effect tp m add) items items' -> producers_ok add -> forall d, first_producers items d ->
  exists p d' p', producers_from_bytes d = Some p /\ first_producers items' d' /\ producers_from_bytes d' = Some p' /\ merged p add p'.
Proof.
  intros H Ha. induction H as [|i before after Hn H IH|name d c d' c' before after Hin Hc Hc' (Hr & _) H IH|name d c before after Hin Hc (Hr & _) H IH]; intros d0 Hf.
  - destruct Hf as (a & c & b & E & _). destruct a; discriminate.
  - destruct (first_cons _ _ _ Hf) as [(c' & -> & Hc' & _)|(Hf' & Hno)].
    { exfalso. apply (Hn (lit "producers")). split; [apply metadata_lit; reflexivity|eauto]. }
    destruct (IH _ Hf') as (p & d' & p' & H1 & (a & c & b & -> & Hx & Hy) & H3 & H4). exists p, d', p'. split; [exact H1|]. split; [|auto].
    exists (i :: a), c, b. split; [reflexivity|]. split; [|exact Hy]. apply not_has_cons; auto.
  - destruct (first_cons _ _ _ Hf) as [(c0 & E & Hc0 & Hk)|(Hf' & Hno)].
    + injection E as <-. destruct (custom_fun _ _ _ _ _ Hc Hc0) as (-> & ->). destruct (Hr eq_refl) as [(Ec & _)|(_ & p & d'' & H1 & [= <-] & H2)]; [congruence|].
      destruct (H2 Ha) as (p' & H3 & H4). exists p, d', p'. split; [exact H1|]. split; [|auto]. exists [], c', after. split; [reflexivity|].
      split; [intros (? & ? & [] & _)|]. split; [exact Hc'|]. eapply count_of_read; eauto.
    + destruct (IH _ Hf') as (p & d1 & p' & H1 & (a & c1 & b & -> & Hx & Hy) & H3 & H4). exists p, d1, p'. split; [exact H1|]. split; [|auto].
      exists (Sec 0 c' :: a), c1, b. split; [reflexivity|]. split; [|exact Hy]. apply not_has_cons; auto. intros d2 c2 [= <-] Hc2 Hk2.
      destruct (custom_fun _ _ _ _ _ Hc' Hc2) as (-> & <-). destruct (Hr eq_refl) as [(Ec & [= <-])|(Ec & _)]; [congruence|]. eapply Hno; eauto.
  - destruct (first_cons _ _ _ Hf) as [(c0 & E & Hc0 & Hk)|(Hf' & Hno)]; [|auto].
    injection E as <-. destruct (custom_fun _ _ _ _ _ Hc Hc0) as (-> & ->). destruct (Hr eq_refl) as [(Ec & _)|(_ & p & d'' & _ & [=] & _)]. congruence.
Qed.
Lemma first_app a b d : first_producers a d -> first_producers (a ++ b) d.
Proof. intros (x & c & y & -> & H). exists x, c, (y ++ b). split; [rewrite <- app_assoc; reflexivity|exact H]. Qed.
Lemma none_app a b : ~ has_producers a -> ~ has_producers b -> ~ has_producers (a ++ b).
Proof. intros Ha Hb (d & c & Hin & X). apply in_app_or in Hin as [Hin|Hin]; [apply Ha|apply Hb]; exists d, c; auto. Qed.
Lemma first_after a b d : ~ has_producers a -> first_producers b d -> first_producers (a ++ b) d.
Proof. intros Ha (x & c & y & -> & Hx & H). exists (a ++ x), c, y. split; [rewrite <- app_assoc; reflexivity|]. split; [apply none_app; auto|exact H]. Qed.
Lemma customs_none l items : customs l items -> (forall d, ~ In (lit "producers", d) l) -> ~ has_producers items.
Proof.
  induction 1 as [|name d c l items Hin Hc H IH]; intros Hno; [intros (? & ? & [] & _)|]. apply not_has_cons; [apply IH; intros d' X; eapply Hno; right; exact X|].
  intros d' c' [= <-] Hc' _. destruct (custom_fun _ _ _ _ _ Hc Hc') as (-> & _). eapply Hno. left. reflexivity.
Qed.
Lemma customs_split l1 : forall l2 items, customs (l1 ++ l2) items -> exists a b, items = a ++ b /\ customs l1 a /\ customs l2 b.
Proof.
  induction l1 as [|[n d] l1 IH]; intros l2 items H; [exists [], items; repeat split; auto; constructor|]. cbn [app] in H. inversion H; subst.
  destruct (IH _ _ H6) as (a & b & -> & Ha & Hb). exists (Sec 0 c :: a), b. split; [reflexivity|]. split; [constructor; auto|exact Hb].
Qed.
(** * There is a first one or none *)
Lemma first_skip i items : (exists d, first_producers items d) \/ ~ has_producers items -> (forall d c, i = Sec 0 c -> custom (lit "producers") d c -> has_count d = true -> False) ->
  (exists d, first_producers (i :: items) d) \/ ~ has_producers (i :: items).
Proof.
  intros [(d & a & c & b & -> & Ha & X)|H] Hi; [left|right; apply not_has_cons; auto].
  exists d, (i :: a), c, b. split; [reflexivity|]. split; [apply not_has_cons; auto|exact X].
Qed.
Lemma holds_first x p items tr bs p' : holds x p items tr bs p' -> (exists d, first_producers items d) \/ ~ has_producers items.
Proof.
  induction 1 as [p|p pl id lenb c p1 items tr bs p' Hst Hu Has Hn Hc Hl H IH|p lenb cb ents ebs p1 items tr bs p' Hst Hu Hce Hl H IH
    |p id lenb len s p1 num e rg c1 sub tr1 bs1 c2 c3 items tr2 bs2 p' Hid Hs Hu Hst Ho Hlim Hv H8 H1 IH1 He Hx H2 IH2].
  - right. intros (? & ? & [] & _).
  - destruct (Z.eqb_spec id 0) as [->|Hid]; [|apply first_skip; [exact IH|congruence]].
    pose proof (conj Hst (conj Hu (conj Has (conj Hn Hc))) : section_step p pl 0 lenb c p1) as Hss.
    destruct (section_zero _ _ _ _ _ Hss) as (rg & name & d0 & -> & Hcu & _).
    destruct (same name (lit "producers") && has_count d0) eqn:Ec.
    + apply andb_true_iff in Ec as (Ec1 & Ec2). apply same_eq in Ec1. subst name. left. exists d0, [], c, items. split; [reflexivity|].
      split; [intros (? & ? & [] & _)|auto].
    + apply first_skip; [exact IH|]. intros d c' [= <-] Hc' Hk. destruct (custom_fun _ _ _ _ _ Hcu Hc') as (-> & ->). rewrite same_refl, Hk in Ec. discriminate.
  - apply first_skip; [exact IH|congruence].
  - apply first_skip; [exact IH2|congruence].
Qed.
Lemma document_first data tr e items : bytes_ok data -> zlen data <= U64MAX -> yields (parse_all_of (new_parser 0) data) tr None -> is_document data e items ->
  (exists d, first_producers items d) \/ ~ has_producers items.
Proof.
  intros Hb Hl Hy Hd. destruct (document_found _ _ Hb Hl Hy) as (num & e0 & rg & tr1 & items0 & bs & p1 & p2 & p3 & -> & -> & Hst & Hh & He).
  destruct (document_unique _ _ _ _ _ Hd (held_document _ _ _ _ _ _ _ _ _ _ eq_refl Hy Hst Hh)) as (<- & <-). eapply holds_first; eauto.
Qed.
Lemma first_has items d : first_producers items d -> has_producers items.
Proof. intros (a & c & b & -> & _ & H). exists d, c. split; [apply in_or_app; right; left; reflexivity|exact H]. Qed.
Lemma oci_not_producers m d l : ~ In (lit "producers", d) (List.concat (map (fun o => match am_oci m o with Set_ d => [(oci_name o, d)] | _ => [] end) l)).
Proof.
  induction l as [|o l IH]; [intros []|]. cbn [map List.concat]. intros H. apply in_app_or in H as [H|H]; [|auto].
  destruct (am_oci m o) as [| |v]; [destruct H|destruct H|]. destruct H as [E|[]]. injection E as E _. destruct o; discriminate.
Qed.

(** * The bytes written *)
Lemma edited_kinded R items items' : edited R items items' -> Forall well_kinded items -> Forall well_kinded items'.
Proof.
  induction 1 as [|i before after Hn H IH|name d c d' c' before after Hin Hc Hc' Hr H IH|name d c before after Hin Hc Hr H IH]; intros Hw;
    [constructor| | |]; apply Forall_cons_iff in Hw as (Hw1 & Hw2); try (constructor; [exact Hw1 || exact I|]); auto.
Qed.
Lemma customs_kinded l items : customs l items -> Forall well_kinded items.
Proof. induction 1; constructor; auto. exact I. Qed.
Lemma canon_laid items cb : canon items cb -> Forall well_kinded items -> laid_out items cb.
Proof.
  induction 1 as [|id c b items bs Eb Hca IH|id e sub bs1 b items bs Hca1 IH1 Eb Hca IH]; intros Hw; [constructor| |]; apply Forall_cons_iff in Hw as (Hw1 & Hw2);
    destruct (encode_bytes_inv _ _ Eb) as (l2 & -> & Hu & Hmin).
  - apply lo_section; [|auto]. split; [exact Hu|]. intros lb' Hl. eapply Hmin; [exact Hl|lia].
  - apply well_kinded_sub in Hw1 as (-> & Hw1). change (header_of e) with (header_of e) in *. replace (header_of e) with (header e) in * by (destruct e; reflexivity).
    apply lo_nested; [auto| |auto]. split; [exact Hu|]. intros lb' Hl. eapply Hmin; [exact Hl|lia].
Qed.
Lemma uN_same n b v : uN n b v -> forall n' b' v', uN n' b' v' -> v = v' -> List.length b = List.length b' -> b = b'.
Proof.
  induction 1 as [n b Hb Hn|n b bs m Hb Hn Hu IH]; intros n' b' v' H' E L; destruct H' as [n' b' Hb' Hn'|n' b' bs' m' Hb' Hn' Hu'].
  - congruence.
  - destruct Hu'; cbn in L; lia.
  - destruct Hu; cbn in L; lia.
  - assert (m = m' /\ b = b') as (-> & ->) by (Z.to_euclidean_division_equations; lia). f_equal. eapply IH; eauto.
Qed.
Lemma shortest_fun a b n : shortest a n -> shortest b n -> a = b.
Proof.
  intros (Ha & Hma) (Hb & Hmb). eapply uN_same; eauto. specialize (Hma _ Hb). specialize (Hmb _ Ha). unfold zlen in *. lia.
Qed.
Lemma laid_out_fun items a : laid_out items a -> forall b, laid_out items b -> a = b.
Proof.
  induction 1 as [|id c lb items bs Hs H IH|id e sub b1 lb items bs H1 IH1 Hs H IH]; intros b Hb; inversion Hb; subst; [reflexivity| |].
  - f_equal; [|auto]. f_equal. f_equal. eapply shortest_fun; eauto.
  - f_equal; [|auto]. f_equal. match goal with Hx : laid_out sub ?x |- _ => pose proof (IH1 _ Hx); subst x end. f_equal. eapply shortest_fun; eauto.
Qed.
Lemma edited_same R items items' : edited R items items' -> (forall name i, In i items -> ~ metadata name i) -> items' = items.
Proof.
  induction 1 as [|i before after Hn H IH|name d c d' c' before after Hin Hc Hc' Hr H IH|name d c before after Hin Hc Hr H IH]; intros Hno; [reflexivity| | |].
  - f_equal. apply IH. intros name j Hj. apply Hno. right. exact Hj.
  - exfalso. apply (Hno name (Sec 0 c)); [left; reflexivity|]. split; [exact Hin|eauto].
  - exfalso. apply (Hno name (Sec 0 c)); [left; reflexivity|]. split; [exact Hin|eauto].
Qed.
