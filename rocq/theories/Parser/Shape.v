(** A successful [parse] is exactly a [pstep]. *)
From Verif.Base Require Import Prelude Utf8 BitFacts.
From Verif.Reader Require Import Model Spec Mono.
From Verif.Leb Require Import Spec Proofs ReaderProofs.
From Verif.Parser Require Import Model Proofs Spec Stream.

Lemma consumes_rdr r bs r' : consumes r bs r' ->
  r' = mkReader (r_rem r') (r_pos r + zlen bs) (r_off r) (r_feat r).
Proof. intros (_ & H1 & H2 & H3). destruct r'; cbn in *. subst. reflexivity. Qed.

Lemma consumes_ok r bs r' : consumes r bs r' -> bytes_ok (r_rem r) -> bytes_ok bs /\ bytes_ok (r_rem r').
Proof. intros (H & _). rewrite H. apply Forall_app. Qed.

Lemma consumes_position r bs r' : consumes r bs r' -> original_position r' = original_position r + zlen bs.
Proof. intros (_ & H1 & H2 & _). unfold original_position. lia. Qed.

Lemma read_bytes_inv n r bs r' : 0 <= n -> read_bytes n r = Ok (bs, r') ->
  consumes r bs r' /\ zlen bs = n.
Proof.
  intros Hn H. destruct (read_bytes_pos n r bs r' Hn H) as [Hl _]. split; [|exact Hl].
  revert H. unfold read_bytes. destruct (_ <=? _); [|discriminate].
  intros E. injection E as E1 E2. unfold consumes. rewrite <- E2, E1. unfold advance. cbn [r_rem r_pos r_off r_feat].
  rewrite <- E1 at 1. rewrite firstn_skipn. auto.
Qed.

Lemma skip_bytes_inv n r c r' : 0 <= n -> skip_bytes n r = Ok (c, r') ->
  exists bs, consumes r bs r' /\ zlen bs = n /\ c = mkReader bs 0 (original_position r) (r_feat r).
Proof.
  intros Hn. unfold skip_bytes. destruct (read_bytes n r) as [[bs r1]|] eqn:E; [|discriminate].
  intros H. injection H as <- <-. apply read_bytes_inv in E as [Hc Hl]; [|exact Hn]. eauto.
Qed.

Lemma u32_inv r v r' : bytes_ok (r_rem r) -> read_var_u32 r = Ok (v, r') ->
  exists bs, uN 32 bs v /\ consumes r bs r'.
Proof. intros Hok H. apply read_var_u32_char in H; assumption. Qed.

Lemma consumes_mk bs off ft b r' : consumes (mkReader bs 0 off ft) b r' -> bs = b ++ r_rem r'.
Proof. intros (H & _). exact H. Qed.

Lemma section_limited_inv en id len r pl r' : 0 <= len -> bytes_ok (r_rem r) ->
  section len (limited_new en id) r = Ok (pl, r') ->
  exists cb count items, uN 32 cb count /\ consumes r (cb ++ items) r' /\ zlen (cb ++ items) = len /\
    pl = PLimited en id (original_position r, original_position r + len) (cb ++ items) count items.
Proof.
  intros Hl Hok. unfold section. destruct (skip_bytes len r) as [[c r1]|] eqn:E; [|discriminate].
  apply skip_bytes_inv in E as (bs & Hc & Hz & ->); [|exact Hl].
  unfold limited_new. destruct (consumes_ok _ _ _ Hc Hok) as [Hob _].
  destruct (read_var_u32 _) as [[count rest]|] eqn:Er; [|discriminate].
  apply u32_inv in Er as (cb & Hu & Hcc); [|exact Hob].
  pose proof (consumes_mk _ _ _ _ _ Hcc) as Eb. unfold range. cbn [map_err_nohint r_off r_rem r_pos].
  intros H. injection H as <- <-. exists cb, count, (r_rem rest). rewrite <- Eb.
  split; [exact Hu|]. split; [exact Hc|]. split; [exact Hz|]. rewrite Hz, Z.add_0_r. reflexivity.
Qed.

Lemma section_custom_inv len r pl r' : 0 <= len -> bytes_ok (r_rem r) ->
  section len custom_new r = Ok (pl, r') ->
  exists nb name data, uN 32 nb (zlen name) /\ zlen name <= MAX_WASM_STRING_SIZE /\ utf8_valid name = true /\
    consumes r (nb ++ name ++ data) r' /\ zlen (nb ++ name ++ data) = len /\
    pl = PCustom (original_position r, original_position r + len) (nb ++ name ++ data) name data.
Proof.
  intros Hl Hok. unfold section. destruct (skip_bytes len r) as [[c r1]|] eqn:E; [|discriminate].
  apply skip_bytes_inv in E as (bs & Hc & Hz & ->); [|exact Hl].
  unfold custom_new, read_string, bind. destruct (consumes_ok _ _ _ Hc Hok) as [Hob _].
  destruct (read_var_u32 _) as [[n rest]|] eqn:Er; [|discriminate].
  apply u32_inv in Er as (nb & Hu & Hcc); [|exact Hob].
  pose proof (consumes_mk _ _ _ _ _ Hcc) as Eb. unfold range. cbn [map_err_nohint r_off r_rem r_pos].
  destruct (Z.ltb_spec MAX_WASM_STRING_SIZE n) as [Hn|Hn]; [discriminate|].
  unfold internal_read_string, bind.
  destruct (read_bytes n rest) as [[name rest2]|] eqn:En; [|discriminate].
  apply read_bytes_inv in En as [Hcn Hzn]; [|apply uN_range in Hu; lia].
  destruct (utf8_valid name) eqn:Ev; [|discriminate]. unfold ret. cbn [map_err_nohint].
  intros H. injection H as <- <-. destruct Hcn as [Er2 _].
  exists nb, name, (r_rem rest2). rewrite Er2 in Eb. rewrite <- Eb, Hzn.
  split; [exact Hu|]. split; [exact Hn|]. split; [exact Ev|]. split; [exact Hc|]. split; [exact Hz|].
  rewrite Hz, Z.add_0_r. reflexivity.
Qed.

Lemma single_item_inv {T} (item : R T) len d r v rg r' :
  0 <= len < 2 ^ 32 ->
  single_item item (original_position r + len) d r = Ok ((v, rg), r') ->
  exists bs c', consumes r bs r' /\ zlen bs = len /\ rg = (original_position r, original_position r + len) /\
    item (mkReader bs 0 (original_position r) (r_feat r)) = Ok (v, c') /\ r_rem c' = [].
Proof.
  intros Hl. unfold single_item.
  replace (original_position r + len - original_position r) with len by lia.
  rewrite (wrapu_id 32 len) by exact Hl.
  destruct (skip_bytes len r) as [[c r1]|] eqn:E; [|discriminate].
  apply skip_bytes_inv in E as (bs & Hc & Hz & ->); [|lia].
  destruct (item _) as [[v' c']|] eqn:Ei; [|discriminate]. cbn [map_err_nohint].
  destruct (eof c') eqn:Ee; [|discriminate]. cbn [negb].
  intros H. injection H as <- <- <-. exists bs, c'. repeat split; try apply Hc; auto.
  unfold eof in Ee. destruct (r_rem c'); [reflexivity|discriminate].
Qed.

Lemma delimited_inv {T} len (f : R T) r v n r' :
  delimited len f r = Ok ((v, n), r') ->
  f r = Ok (v, r') /\ n = len - (original_position r' - original_position r) /\ 0 <= n.
Proof.
  unfold delimited. destruct (f r) as [[v' r1]|]; [|discriminate].
  destruct (Z.leb_spec 0 (len - (original_position r1 - original_position r))); [|discriminate].
  intros E. injection E as <- <- <-. auto.
Qed.

Lemma fc_ok c pos u : check_function_code_counts c pos = Ok u ->
  (forall n, function_entries c = Some n -> 0 <= n) -> (forall n, code_entries c = Some n -> 0 <= n) ->
  funcs_agree c.
Proof.
  unfold check_function_code_counts, funcs_agree.
  destruct (function_entries c) as [n|], (code_entries c) as [m|]; intros H Hn Hm; try reflexivity.
  - destruct (Z.eqb_spec n m); [assumption|discriminate].
  - specialize (Hn n eq_refl). destruct (Z.ltb_spec 0 n); [discriminate|lia].
  - specialize (Hm m eq_refl). destruct (Z.ltb_spec 0 m); [discriminate|lia].
Qed.
Lemma fc_ok_conv c pos :
  funcs_agree c -> check_function_code_counts c pos = Ok tt.
Proof.
  unfold check_function_code_counts, funcs_agree.
  destruct (function_entries c) as [n|], (code_entries c) as [m|]; intros H; subst; try reflexivity.
  rewrite Z.eqb_refl. reflexivity.
Qed.
Lemma dc_ok c pos u : check_data_count c pos = Ok u ->
  (forall n, data_count c = Some n -> 0 <= n) -> data_agree c.
Proof.
  unfold check_data_count, data_agree.
  destruct (data_count c) as [n|], (data_entries c) as [m|]; intros H Hn k E; try discriminate;
    injection E as <-.
  - destruct (Z.eqb_spec n m); [assumption|discriminate].
  - specialize (Hn n eq_refl). destruct (Z.ltb_spec 0 n); [discriminate|lia].
Qed.
Lemma dc_ok_conv c pos : data_agree c -> check_data_count c pos = Ok tt.
Proof.
  unfold check_data_count, data_agree.
  destruct (data_count c) as [n|], (data_entries c) as [m|]; intros H; try reflexivity;
    rewrite (H n eq_refl); [rewrite Z.eqb_refl|]; reflexivity.
Qed.

(** Counts are non-negative: an invariant of reachable parsers. *)
Definition counts_ok (c : counts) : Prop :=
  (forall n, function_entries c = Some n -> 0 <= n) /\ (forall n, code_entries c = Some n -> 0 <= n) /\
  (forall n, data_entries c = Some n -> 0 <= n) /\ (forall n, data_count c = Some n -> 0 <= n).

Lemma counts_ok_bump id n c : counts_ok c -> 0 <= n -> counts_ok (bump id n c).
Proof.
  intros (H1 & H2 & H3 & H4) Hn. unfold bump, counts_ok.
  destruct (id =? 3), (id =? 11), (id =? 12), (id =? 10); cbn; repeat split; auto; intros k [= <-]; auto.
Qed.

Lemma order_inv p o s r r' p' : update_order o s p r = (Ok (tt, r'), p') ->
  order_ok p o s /\ r' = r /\ p' = set_order p (o, s).
Proof.
  unfold update_order, order_ok. destruct (p_order p) as [lo lp] eqn:E. cbn [fst snd].
  destruct (encoding_eqb (p_enc p) EModule && ((o <=? lo) && (lp <? s))) eqn:Eb; [discriminate|].
  intros [= <- <-]. split; [|auto]. intros (Hm & Ho & Hp). rewrite Hm in Eb. cbn in Eb.
  apply andb_false_iff in Eb as [Eb|Eb]; lia.
Qed.
Lemma order_conv p o s r : order_ok p o s -> update_order o s p r = (Ok (tt, r), set_order p (o, s)).
Proof.
  unfold update_order, order_ok. destruct (p_order p) as [lo lp] eqn:E. cbn [fst snd]. intros H.
  destruct (encoding_eqb (p_enc p) EModule && ((o <=? lo) && (lp <? s))) eqn:Eb; [|reflexivity].
  exfalso. apply H. apply andb_true_iff in Eb as [E1 E2]. apply andb_true_iff in E2 as [E2 E3].
  destruct (p_enc p); [|discriminate]. repeat split; lia.
Qed.

Lemma read_n_u32_inv n : forall r l r', bytes_ok (r_rem r) ->
  read_n n read_var_u32 r = Ok (l, r') ->
  List.length l = n /\ exists bs, u32s bs l /\ consumes r bs r'.
Proof.
  induction n as [|n IH]; intros r l r' Hok; cbn [read_n].
  - intros [= <- <-]. split; [reflexivity|]. exists []. split; [constructor|apply consumes_refl].
  - unfold bind. destruct (read_var_u32 r) as [[v r1]|] eqn:Ev; [|discriminate].
    apply u32_inv in Ev as (b & Hu & Hc); [|exact Hok].
    destruct (consumes_ok _ _ _ Hc Hok) as [_ Hok1].
    destruct (read_n n read_var_u32 r1) as [[l1 r2]|] eqn:En; [|discriminate].
    apply IH in En as (Hl & bs & Hus & Hcs); [|exact Hok1].
    intros [= <- <-]. split; [cbn; congruence|]. exists (b ++ bs).
    split; [constructor; assumption|eapply consumes_trans; eauto].
Qed.

Lemma read_size_inv l d r n r' : bytes_ok (r_rem r) -> read_size l d r = Ok (n, r') ->
  exists bs, uN 32 bs n /\ consumes r bs r' /\ n <= l.
Proof.
  intros Hok. unfold read_size, bind, get_pos.
  destruct (read_var_u32 r) as [[v r1]|] eqn:Ev; [|discriminate].
  apply u32_inv in Ev as (b & Hu & Hc); [|exact Hok].
  destruct (Z.ltb_spec l v); [discriminate|]. intros [= <- <-]. eauto.
Qed.

Lemma read_start_inv r st r' : bytes_ok (r_rem r) -> read_start_fn r = Ok (st, r') ->
  exists fb func nb args abs rb results, st = mkStart func args results /\
    uN 32 fb func /\ uN 32 nb (zlen args) /\ zlen args <= 1000 /\ u32s abs args /\
    uN 32 rb results /\ results <= 1000 /\ consumes r (fb ++ nb ++ abs ++ rb) r'.
Proof.
  intros Hok. unfold read_start_fn, bind at 1.
  destruct (read_var_u32 r) as [[func r1]|] eqn:E1; [|discriminate].
  apply u32_inv in E1 as (fb & Hf & Hc1); [|exact Hok].
  destruct (consumes_ok _ _ _ Hc1 Hok) as [_ Hok1].
  unfold read_list, bind.
  destruct (read_size 1000 "start function arguments" r1) as [[n r2]|] eqn:E2; [|discriminate].
  apply read_size_inv in E2 as (nb & Hn & Hc2 & Hl2); [|exact Hok1].
  destruct (consumes_ok _ _ _ Hc2 Hok1) as [_ Hok2].
  destruct (read_n (Z.to_nat n) read_var_u32 r2) as [[args r3]|] eqn:E3; [|discriminate].
  apply read_n_u32_inv in E3 as (Hl & abs & Ha & Hc3); [|exact Hok2].
  destruct (consumes_ok _ _ _ Hc3 Hok2) as [_ Hok3].
  destruct (read_size 1000 "start function results" r3) as [[m r4]|] eqn:E4; [|discriminate].
  apply read_size_inv in E4 as (rb & Hr & Hc4 & Hl4); [|exact Hok3].
  unfold ret. intros [= <- <-].
  assert (Hz : zlen args = n). { unfold zlen. rewrite Hl. apply uN_range in Hn. lia. }
  exists fb, func, nb, args, abs, rb, m. rewrite Hz.
  repeat (split; [auto; fail|]). 
  eapply consumes_trans; [exact Hc1|]. eapply consumes_trans; [exact Hc2|].
  eapply consumes_trans; eauto.
Qed.

Lemma section_order_none id : 0 <= id -> id = 0 \/ 13 < id -> section_order id = None.
Proof.
  intros H [->|H']; [reflexivity|]. unfold section_order.
  destruct id as [|id|id]; [reflexivity| |lia].
  do 4 (destruct id as [id|id|]; try reflexivity; try lia).
Qed.

(** The part of a section after its header. *)
Section Body.
  Variables (e : bool) (p q : parser) (r : reader) (id len : Z) (lenb : list Z).
  Let s := original_position r.
  Hypothesis Hat : at_sections p q.
  Hypothesis Hhd : header_at p id lenb len s.
  Hypothesis Hok : bytes_ok (r_rem r).
  Hypothesis Hcnt : counts_ok (p_counts p).

  Lemma q_facts : p_counts q = p_counts p /\ p_order q = p_order p /\ p_enc q = p_enc p /\
    p_offset q = p_offset p /\ p_max_offset q = p_max_offset p /\ p_feat q = p_feat p.
  Proof. destruct Hat as [[_ ->]|[_ ->]]; cbn; auto 10. Qed.

  Lemma len_range : 0 <= len < 2 ^ 32.
  Proof. destruct Hhd as (_ & Hu & _). apply uN_range in Hu. exact Hu. Qed.

  Definition adv (p' : parser) (n : Z) := set_offset p' (p_offset p' + n).

  (** What a body must establish: the bytes it took, and that the whole section is
      a step; the reader started at [s] but the step starts at the section id. *)
  Definition body_ok (pl : payload) (r' : reader) (p' : parser) : Prop :=
    exists bs, consumes r bs r' /\
      pstep e p pl (id :: lenb ++ bs) (adv p' (1 + zlen lenb + zlen bs)).

  Lemma zlen_step bs : zlen (id :: lenb ++ bs) = 1 + zlen lenb + zlen bs.
  Proof. rewrite zlen_cons, zlen_app. lia. Qed.

  Lemma header_eq n : n = len -> header_at p id lenb n s.
  Proof. intros ->. exact Hhd. Qed.

  Lemma body_limited o pl r' p' :
    p_enc p = EModule -> section_order id = Some o -> id <> 8 -> id <> 10 -> id <> 12 -> id <> 3 -> id <> 11 ->
    ordered_limited o id len s q r = (Ok (pl, r'), p') -> body_ok pl r' p'.
  Proof.
    intros Hen Hso H8 H10 H12 H3 H11. unfold ordered_limited, mbind.
    destruct (update_order o s q r) as [[[[] r1]|] p1] eqn:Eo; [|discriminate].
    apply order_inv in Eo as (Hord & -> & ->).
    unfold lift. destruct (section len _ r) as [[pl1 r2]|] eqn:Es; [|discriminate].
    apply section_limited_inv in Es as (cb & count & items & Hu & Hc & Hz & ->); [|apply len_range|exact Hok].
    intros [= <- <- <-]. exists (cb ++ items). split; [exact Hc|].
    pose proof q_facts as (Qc & Qo & Qe & Qf & Qm & Qft).
    pose proof (ps_limited e p q id o lenb s cb count items Hat Hen Hso H8 H10 H12 (header_eq _ Hz)) as Hp.
    assert (Eb : bump id count (p_counts p) = p_counts q).
    { unfold bump. rewrite Qc. destruct (Z.eqb_spec id 3), (Z.eqb_spec id 11), (Z.eqb_spec id 12), (Z.eqb_spec id 10); congruence. }
    rewrite Eb in Hp. unfold adv. rewrite <- zlen_step. fold s. rewrite <- Hz.
    replace (set_order q (o, s)) with (set_counts (set_order q (o, s)) (p_counts q)) by (destruct q; reflexivity).
    apply Hp; [|exact Hu|congruence].
    unfold order_ok in *. rewrite Qo, Qe in Hord. exact Hord.
  Qed.

  Lemma body_custom pl r' : id = 0 -> section len custom_new r = Ok (pl, r') -> body_ok pl r' q.
  Proof.
    intros Hid Hs. 
    apply section_custom_inv in Hs as (nb & name & data & Hu & Hl & Hv & Hc & Hz & ->); [|apply len_range|exact Hok].
    exists (nb ++ name ++ data). split; [exact Hc|]. unfold adv. rewrite <- zlen_step. fold s. rewrite <- Hz.
    pose proof (header_eq _ Hz) as Hh. revert Hh. subst id. intros Hh.
    apply ps_custom; auto.
  Qed.

  Lemma body_unknown pl r' p' :
    id <> 0 -> (match p_enc p with EModule => section_order id = None | EComponent => 11 < id end) ->
    (do offset <- lift get_pos; do contents <- lift (read_bytes len);
     mret (PUnknown id contents (offset, s + len))) q r = (Ok (pl, r'), p') -> body_ok pl r' p'.
  Proof.
    intros H0 Hu. unfold mbind, lift, get_pos.
    destruct (read_bytes len r) as [[c r1]|] eqn:E; [|discriminate].
    apply read_bytes_inv in E as [Hc Hz]; [|apply len_range].
    unfold mret. intros [= <- <- <-]. exists c. split; [exact Hc|]. unfold adv. rewrite <- zlen_step.
    fold s. rewrite <- Hz. apply ps_unknown; auto. apply header_eq, Hz.
  Qed.

  Lemma body_module pl r' p' :
    p_enc p = EModule -> id <> 0 ->
    parse_module_section id len s (s + len) q r = (Ok (pl, r'), p') -> body_ok pl r' p'.
  Proof.
    intros Hen Hid0 H. pose proof q_facts as (Qc & Qo & Qe & Qf & Qm & Qft). pose proof len_range as Hlr.
    assert (Hoo : forall o, order_ok q o s -> order_ok p o s).
    { intros o. unfold order_ok. rewrite Qo, Qe. auto. }
    unfold parse_module_section in H.
    destruct (Z.eqb_spec id 1) as [E1|N1].
    { eapply body_limited in H; eauto; subst id; first [reflexivity|congruence]. }
    destruct (Z.eqb_spec id 2) as [E2|N2].
    { eapply body_limited in H; eauto; subst id; first [reflexivity|congruence]. }
    destruct (Z.eqb_spec id 3) as [E3|N3].
    { unfold mbind in H. destruct (update_order OFunction s q r) as [[[[] r1]|] p1] eqn:Eo; [|discriminate].
      apply order_inv in Eo as (Hord & -> & ->).
      unfold lift in H. destruct (section len _ r) as [[pl1 r2]|] eqn:Es; [|discriminate].
      apply section_limited_inv in Es as (cb & count & items & Hu & Hc & Hz & ->); [|lia|exact Hok].
      unfold mget, mput, mret in H. injection H as <- <- <-. exists (cb ++ items). split; [exact Hc|].
      unfold adv. rewrite <- zlen_step. fold s. rewrite <- Hz.
      pose proof (ps_limited e p q id OFunction lenb s cb count items Hat Hen) as Hp.
      assert (Eb : bump id count (p_counts p) = mkCounts (Some count) (code_entries (p_counts q))
         (data_entries (p_counts q)) (data_count (p_counts q)) (component_start_sections (p_counts q))).
      { subst id. rewrite Qc. reflexivity. }
      rewrite Eb in Hp. apply Hp; auto; try (subst id; first [reflexivity|congruence]). }
    destruct (Z.eqb_spec id 4) as [E4|N4].
    { eapply body_limited in H; eauto; subst id; first [reflexivity|congruence]. }
    destruct (Z.eqb_spec id 5) as [E5|N5].
    { eapply body_limited in H; eauto; subst id; first [reflexivity|congruence]. }
    destruct (Z.eqb_spec id 6) as [E6|N6].
    { eapply body_limited in H; eauto; subst id; first [reflexivity|congruence]. }
    destruct (Z.eqb_spec id 7) as [E7|N7].
    { eapply body_limited in H; eauto; subst id; first [reflexivity|congruence]. }
    destruct (Z.eqb_spec id 8) as [E8|N8].
    { unfold mbind in H. destruct (update_order OStart s q r) as [[[[] r1]|] p1] eqn:Eo; [|discriminate].
      apply order_inv in Eo as (Hord & -> & ->). unfold lift in H.
      destruct (single_item _ _ _ r) as [[[f rg] r2]|] eqn:Es; [|discriminate].
      apply single_item_inv in Es as (bs & c' & Hc & Hz & -> & Hi & Hn); [|exact Hlr].
      destruct (consumes_ok _ _ _ Hc Hok) as [Hob _].
      apply u32_inv in Hi as (fb & Hu & Hcf); [|exact Hob].
      pose proof (consumes_mk _ _ _ _ _ Hcf) as Eb. rewrite Hn, app_nil_r in Eb. subst bs.
      unfold mret in H. injection H as <- <- <-. exists fb. split; [exact Hc|].
      unfold adv. rewrite <- zlen_step. fold s. rewrite <- Hz.
      pose proof (header_eq _ Hz) as Hh. revert Hh. subst id. intros Hh. apply ps_start; auto. }
    destruct (Z.eqb_spec id 9) as [E9|N9].
    { eapply body_limited in H; eauto; subst id; first [reflexivity|congruence]. }
    destruct (Z.eqb_spec id 10) as [E10|N10].
    { unfold mbind in H. destruct (update_order OCode s q r) as [[[[] r1]|] p1] eqn:Eo; [|discriminate].
      apply order_inv in Eo as (Hord & -> & ->). unfold lift in H.
      destruct (delimited len read_var_u32 r) as [[[count n] r2]|] eqn:Es; [|discriminate].
      apply delimited_inv in Es as (Er & -> & Hn).
      apply u32_inv in Er as (cb & Hu & Hc); [|exact Hok].
      rewrite (consumes_position _ _ _ Hc) in *.
      replace (len - (original_position r + zlen cb - original_position r)) with (len - zlen cb) in * by lia.
      unfold mget, mput, mcheck in H.
      destruct (check_function_code_counts _ _) as [[]|] eqn:Ec; [|discriminate].
      assert (Hnn : counts_ok (bump 10 count (p_counts p))).
      { apply counts_ok_bump; [exact Hcnt|]. apply uN_range in Hu. lia. }
      destruct Hnn as (Hn1 & Hn2 & _).
      assert (Hfa : funcs_agree (bump 10 count (p_counts p))).
      { eapply fc_ok; [|exact Hn1|exact Hn2]. cbn [p_counts set_counts set_order] in Ec.
        rewrite Qc in Ec. exact Ec. }
      unfold mret in H. injection H as <- <- <-. exists cb. split; [exact Hc|].
      unfold adv. rewrite <- zlen_step. cbn [p_counts set_counts set_order]. rewrite Qc.
      pose proof Hhd as Hh. revert Hh. subst id. intros Hh.
      pose proof (ps_code e p q lenb len s cb count Hat Hen Hh (Hoo _ Hord) Hu ltac:(lia) Hfa) as Hp.
      exact Hp. }
    destruct (Z.eqb_spec id 11) as [E11|N11].
    { unfold mbind in H. destruct (update_order OData s q r) as [[[[] r1]|] p1] eqn:Eo; [|discriminate].
      apply order_inv in Eo as (Hord & -> & ->).
      unfold lift in H. destruct (section len _ r) as [[pl1 r2]|] eqn:Es; [|discriminate].
      apply section_limited_inv in Es as (cb & count & items & Hu & Hc & Hz & ->); [|lia|exact Hok].
      unfold mget, mput, mret, get_pos, mcheck in H.
      destruct (check_data_count _ _) as [[]|] eqn:Ec; [|discriminate].
      injection H as <- <- <-. exists (cb ++ items). split; [exact Hc|].
      unfold adv. rewrite <- zlen_step. fold s. rewrite <- Hz.
      pose proof (ps_limited e p q id OData lenb s cb count items Hat Hen) as Hp.
      assert (Eb : bump id count (p_counts p) = mkCounts (function_entries (p_counts q)) (code_entries (p_counts q))
         (Some count) (data_count (p_counts q)) (component_start_sections (p_counts q))).
      { subst id. rewrite Qc. reflexivity. }
      rewrite Eb in Hp. apply Hp; auto; try (subst id; first [reflexivity|congruence]).
      intros _. eapply dc_ok; [exact Ec|].
      assert (Hnn : counts_ok (bump 11 count (p_counts p))).
      { apply counts_ok_bump; [exact Hcnt|]. apply uN_range in Hu. lia. }
      destruct Hnn as (_ & _ & _ & Hn4). intros k Hk. apply Hn4. rewrite Qc in Hk. exact Hk. }
    destruct (Z.eqb_spec id 12) as [E12|N12].
    { unfold mbind in H. destruct (update_order ODataCount s q r) as [[[[] r1]|] p1] eqn:Eo; [|discriminate].
      apply order_inv in Eo as (Hord & -> & ->). unfold lift in H.
      destruct (single_item _ _ _ r) as [[[f rg] r2]|] eqn:Es; [|discriminate].
      apply single_item_inv in Es as (bs & c' & Hc & Hz & -> & Hi & Hn); [|exact Hlr].
      destruct (consumes_ok _ _ _ Hc Hok) as [Hob _].
      apply u32_inv in Hi as (fb & Hu & Hcf); [|exact Hob].
      pose proof (consumes_mk _ _ _ _ _ Hcf) as Eb. rewrite Hn, app_nil_r in Eb. subst bs.
      unfold mget, mput, mret in H. injection H as <- <- <-. exists fb. split; [exact Hc|].
      unfold adv. rewrite <- zlen_step. fold s. rewrite <- Hz. cbn [p_counts set_counts set_order]. rewrite Qc.
      pose proof (header_eq _ Hz) as Hh. revert Hh. subst id. intros Hh.
      exact (ps_data_count e p q lenb s fb f Hat Hen Hh (Hoo _ Hord) Hu). }
    destruct (Z.eqb_spec id 13) as [E13|N13].
    { eapply body_limited in H; eauto; subst id; first [reflexivity|congruence]. }
    apply body_unknown in H; auto. rewrite Hen.
    destruct Hhd as (Hi & _). apply section_order_none; lia.
  Qed.

  Lemma body_component lp pl r' p' :
    p_enc p = EComponent -> id <> 0 ->
    parse_component_section id len lp s (s + len) q r = (Ok (pl, r'), p') -> body_ok pl r' p'.
  Proof.
    intros Hen Hid0 H. pose proof q_facts as (Qc & Qo & Qe & Qf & Qm & Qft). pose proof len_range as Hlr.
    unfold parse_component_section in H.
    destruct ((id =? 1) || (id =? 4)) eqn:E14.
    { destruct (Z.ltb_spec MAX_WASM_MODULE_SIZE len) as [Hl|Hl]; [discriminate|].
      unfold mbind, mget, mput, mret in H. injection H as <- <- <-. exists []. split; [apply consumes_refl|].
      rewrite app_nil_r. unfold adv. change (zlen (@nil Z)) with 0.
      pose proof (ps_nested e p q id lenb len s Hat Hen ltac:(lia) Hhd Hl) as Hp.
      unfold child in Hp. rewrite Qft.
      destruct Hhd as (_ & _ & Hs & _).
      replace (set_offset (set_offset q (p_offset q + len)) _) with (set_offset q (s + len)).
      - destruct (id =? 1); exact Hp.
      - unfold set_offset. cbn. f_equal. lia. }
    match type of H with (if ?b then _ else _) _ _ = _ => destruct b eqn:EL end.
    { unfold lift in H. destruct (section len _ r) as [[pl1 r2]|] eqn:Es; [|discriminate].
      apply section_limited_inv in Es as (cb & count & items & Hu & Hc & Hz & ->); [|lia|exact Hok].
      injection H as <- <- <-. exists (cb ++ items). split; [exact Hc|].
      unfold adv. rewrite <- zlen_step. fold s. rewrite <- Hz.
      apply ps_climited; auto; [|apply header_eq, Hz]. cbn. lia. }
    destruct (Z.eqb_spec id 9) as [E9|N9].
    { unfold mbind, mget in H. destruct (component_start_sections (p_counts q)) eqn:Ecs; [discriminate|].
      unfold mput, lift in H.
      destruct (single_item _ _ _ r) as [[[f rg] r2]|] eqn:Es; [|discriminate].
      apply single_item_inv in Es as (bs & c' & Hc & Hz & -> & Hi & Hn); [|exact Hlr].
      destruct (consumes_ok _ _ _ Hc Hok) as [Hob _].
      apply read_start_inv in Hi as (fb & func & nb & args & abs & rb & results & -> & Hf & Hnb & Ha & Hab & Hrb & Hr & Hcf); [|exact Hob].
      pose proof (consumes_mk _ _ _ _ _ Hcf) as Eb. rewrite Hn, app_nil_r in Eb. subst bs.
      unfold mret in H. injection H as <- <- <-. eexists. split; [exact Hc|].
      unfold adv. rewrite <- zlen_step. fold s. rewrite <- Hz. cbn [p_counts set_counts set_order]. rewrite Qc.
      pose proof (header_eq _ Hz) as Hh. revert Hh. subst id. intros Hh.
      rewrite Qc in Ecs.
      exact (ps_cstart e p q lenb s fb func nb args abs rb results Hat Hen Ecs Hh Hf Hnb Ha Hab Hrb Hr). }
    apply body_unknown in H; auto. rewrite Hen.
    destruct Hhd as (Hi & _). lia.
  Qed.
End Body.

Lemma parse_section_sound e p q r pl r' p' :
  at_sections p q -> original_position r = p_offset p -> bytes_ok (r_rem r) -> counts_ok (p_counts p) ->
  parse_section q r = (Ok (pl, r'), p') ->
  exists bs, consumes r bs r' /\ pstep e p pl bs (adv p' (zlen bs)).
Proof.
  intros Hat Hpos Hok Hcnt. unfold parse_section, mbind, lift, get_pos, mget.
  destruct (read_u8 r) as [[id r1]|] eqn:E8; [|discriminate].
  assert (Hc1 : consumes r [id] r1 /\ is_byte id).
  { unfold read_u8 in E8. destruct (r_rem r) as [|b t] eqn:Er; [discriminate|].
    injection E8 as <- <-. split; [|inversion Hok; assumption].
    unfold consumes, advance. cbn. rewrite Er. auto. }
  destruct Hc1 as [Hc1 Hbyte]. destruct (consumes_ok _ _ _ Hc1 Hok) as [_ Hok1].
  rewrite land_80 by exact Hbyte.
  destruct (Z.ltb_spec id 128) as [Hid|Hid]; [|discriminate]. cbn [negb Z.eqb].
  destruct (read_var_u32 r1) as [[len r2]|] eqn:Ev; [|discriminate].
  apply u32_inv in Ev as (lenb & Hu & Hc2); [|exact Hok1].
  destruct (consumes_ok _ _ _ Hc2 Hok1) as [_ Hok2].
  destruct (_ || _) eqn:Esz; [discriminate|]. apply orb_false_iff in Esz as [Es1 Es2].
  intros H.
  assert (Qm : max_off q = max_off p).
  { destruct Hat as [[_ ->]|[_ ->]]; reflexivity. }
  assert (Qe : p_enc q = p_enc p).
  { destruct Hat as [[_ ->]|[_ ->]]; reflexivity. }
  assert (Hhd : header_at p id lenb len (original_position r2)).
  { unfold header_at. split; [unfold is_byte in Hbyte; lia|]. split; [exact Hu|].
    rewrite (consumes_position _ _ _ Hc2), (consumes_position _ _ _ Hc1) in *.
    change (zlen [id]) with 1 in *. rewrite Qm in *. repeat split; lia. }
  assert (Hb : body_ok e p r2 id lenb pl r' p').
  { destruct (Z.eqb_spec id 0) as [E0|N0].
    - destruct (section len custom_new r2) as [[pl1 r3]|] eqn:Es; [|discriminate].
      injection H as <- <- <-. eapply body_custom; eauto.
    - rewrite Qe in H. destruct (p_enc p) eqn:Een.
      + eapply body_module; eauto.
      + eapply body_component; eauto. }
  destruct Hb as (bs & Hc3 & Hp). exists (id :: lenb ++ bs).
  split; [exact (consumes_trans _ _ _ _ _ Hc1 (consumes_trans _ _ _ _ _ Hc2 Hc3))|].
  rewrite zlen_cons, zlen_app. replace (1 + (zlen lenb + zlen bs)) with (1 + zlen lenb + zlen bs) by lia.
  exact Hp.
Qed.

Lemma pss_sound e p q r pl r' p' :
  at_sections p q -> original_position r = p_offset p -> bytes_ok (r_rem r) -> counts_ok (p_counts p) ->
  parse_section_start e q r = (Ok (pl, r'), p') ->
  exists bs, consumes r bs r' /\ pstep e p pl bs (adv p' (zlen bs)) /\ (bs = [] -> r_rem r = []).
Proof.
  intros Hat Hpos Hok Hcnt H.
  assert (Qc : p_counts q = p_counts p).
  { destruct Hat as [[_ ->]|[_ ->]]; reflexivity. }
  destruct (e && (bytes_remaining r =? 0)) eqn:Ee.
  - unfold parse_section_start in H. rewrite Ee in H.
    apply andb_true_iff in Ee as [-> Er].
    destruct (check_function_code_counts _ _) eqn:E1; [|discriminate].
    destruct (check_data_count _ _) eqn:E2; [|discriminate].
    injection H as <- <- <-. exists []. split; [apply consumes_refl|]. rewrite Hpos. split.
    + apply ps_end; auto; rewrite <- Qc; [eapply fc_ok|eapply dc_ok]; eauto; rewrite Qc; apply Hcnt.
    + intros _. unfold bytes_remaining in Er. destruct (r_rem r) as [|b t]; [reflexivity|].
      rewrite zlen_cons in Er. pose proof (zlen_nonneg t). lia.
  - assert (Hne : not_end e r).
    { destruct e; [right|left; reflexivity]. intros Hn. unfold bytes_remaining in Ee.
      rewrite Hn in Ee. discriminate. }
    destruct (pss_cases e q r Hne) as [[_ E]|[_ E]]; rewrite E in H; [discriminate|].
    pose proof (parse_section_sound e _ _ _ _ _ _ Hat Hpos Hok Hcnt H) as (bs & Hc & Hp).
    exists bs. split; [exact Hc|]. split; [exact Hp|]. intros ->.
    pose proof (consumes_nonempty_id _ _ _ _ _ _ H Hc) as Hz. change (zlen (@nil Z)) with 0 in Hz. lia.
Qed.

Lemma header_sound e p r pl r' p' :
  p_state p = SHeader -> original_position r = p_offset p -> bytes_ok (r_rem r) ->
  parse_header p r = (Ok (pl, r'), p') ->
  exists bs, consumes r bs r' /\ pstep e p pl bs (adv p' (zlen bs)) /\ bs <> [].
Proof.
  intros Hst Hpos Hok. unfold parse_header, read_header_version, bind.
  destruct (read_bytes 4 r) as [[m r1]|] eqn:E1; [|discriminate].
  destruct (bytes_eqb _ _) eqn:Em; [|discriminate]. unfold read_u32, bind, ret.
  destruct (read_bytes 4 r1) as [[v r2]|] eqn:E2; [|discriminate].
  apply read_bytes_inv in E1 as [Hc1 Hz1]; [|lia]. apply read_bytes_inv in E2 as [Hc2 Hz2]; [|lia].
  apply bytes_eqb_eq in Em. subst m.
  destruct (consumes_ok _ _ _ Hc1 Hok) as [_ Hok1]. destruct (consumes_ok _ _ _ Hc2 Hok1) as [Hokv _].
  destruct (header_encoding _ _) as [en|] eqn:Eh; [|discriminate].
  intros H. injection H as <- <- <-.
  pose proof (consumes_trans _ _ _ _ _ Hc1 Hc2) as Hc.
  exists (WASM_MAGIC_NUMBER ++ v). split; [exact Hc|]. split; [|discriminate].
  rewrite (consumes_position _ _ _ Hc), Hpos.
  destruct v as [|a [|b [|c [|d [|? v]]]]]; try discriminate Hz2.
  2:{ rewrite !zlen_cons in Hz2. pose proof (zlen_nonneg v). lia. }
  change (zlen (WASM_MAGIC_NUMBER ++ [a; b; c; d])) with 8.
  inversion Hokv as [|? ? Ha Hokb]; subst. inversion Hokb as [|? ? Hb Hokc]; subst.
  inversion Hokc as [|? ? Hcc Hokd]; subst. inversion Hokd as [|? ? Hd _]; subst. unfold is_byte in *.
  unfold header_encoding in Eh. cbn [from_le_bytes] in Eh |- *.
  set (V := a + 256 * (b + 256 * (c + 256 * (d + 256 * 0)))) in *.
  assert (Elo : wrapu 16 V = a + 256 * b).
  { unfold wrapu. replace V with ((a + 256 * b) + (c + 256 * d) * 2 ^ 16) by (unfold V; change (2^16) with 65536; lia).
    rewrite Z.mod_add by discriminate. apply Z.mod_small. change (2^16) with 65536. lia. }
  assert (Ehi : wrapu 16 (Z.shiftr V 16) = c + 256 * d).
  { rewrite Z.shiftr_div_pow2 by lia.
    replace V with ((a + 256 * b) + (c + 256 * d) * 2 ^ 16) by (unfold V; change (2^16) with 65536; lia).
    rewrite Z.div_add by discriminate. rewrite Z.div_small by (change (2^16) with 65536; lia).
    apply wrapu_id. change (2^16) with 65536. unfold in_u. change (2^16) with 65536. lia. }
  rewrite Elo, Ehi in *.
  destruct ((a + 256 * b =? 1) && (c + 256 * d =? 0)) eqn:EM.
  - injection Eh as <-. assert (a = 1 /\ b = 0 /\ c = 0 /\ d = 0) as (-> & -> & -> & ->) by lia.
    exact (ps_module_header e p Hst).
  - destruct ((a + 256 * b =? 13) && (c + 256 * d =? 1)) eqn:EC; [|discriminate].
    injection Eh as <-. assert (a = 13 /\ b = 0 /\ c = 1 /\ d = 0) as (-> & -> & -> & ->) by lia.
    exact (ps_component_header e p Hst).
Qed.

Lemma entry_sound e p n l r pl r' p' :
  p_state p = SFunctionBody n l -> n <> 0 -> original_position r = p_offset p -> bytes_ok (r_rem r) ->
  parse_body n l p r = (Ok (pl, r'), p') ->
  exists bs, consumes r bs r' /\ pstep e p pl bs (adv p' (zlen bs)) /\ bs <> [].
Proof.
  intros Hst Hn Hpos Hok. unfold parse_body, mbind, lift.
  destruct (delimited l read_reader r) as [[[body n'] r2]|] eqn:Ed; [|discriminate].
  apply delimited_inv in Ed as (Er & -> & Hl). unfold mget, mput, mret.
  unfold read_reader, bind in Er.
  destruct (read_var_u32 r) as [[size r1]|] eqn:Ev; [|discriminate].
  apply u32_inv in Ev as (lenb & Hu & Hc1); [|exact Hok].
  apply skip_bytes_inv in Er as (bs & Hc2 & Hz & ->); [|apply uN_range in Hu; lia].
  pose proof (consumes_trans _ _ _ _ _ Hc1 Hc2) as Hc.
  intros H. injection H as <- <- <-. exists (lenb ++ bs). split; [exact Hc|]. split.
  - rewrite (consumes_position _ _ _ Hc) in *. 
    replace (original_position r + zlen (lenb ++ bs) - original_position r) with (zlen (lenb ++ bs)) in * by lia.
    unfold range. cbn [r_off r_pos r_rem]. rewrite (consumes_position _ _ _ Hc1), Hpos, Z.add_0_r.
    rewrite <- Hz in Hu.
    exact (ps_entry e p n l lenb bs Hst Hn Hu ltac:(lia)).
  - intros E. apply app_eq_nil in E as [E _]. apply uN_nonempty in Hu. congruence.
Qed.

Lemma parse_reader_sound e p r pl r' p' :
  original_position r = p_offset p -> bytes_ok (r_rem r) -> counts_ok (p_counts p) ->
  parse_reader e p r = (Ok (pl, r'), p') ->
  exists bs, consumes r bs r' /\ pstep e p pl bs (adv p' (zlen bs)) /\ (bs = [] -> r_rem r = []).
Proof.
  intros Hpos Hok Hcnt. unfold parse_reader. destruct (p_state p) as [| |n l] eqn:Es.
  - intros H. destruct (header_sound e _ _ _ _ _ Es Hpos Hok H) as (bs & H1 & H2 & H3).
    exists bs. repeat split; try apply H1; auto. congruence.
  - intros H. eapply pss_sound; eauto. left. auto.
  - destruct (Z.eqb_spec n 0) as [->|Hn].
    + destruct (Z.eqb_spec l 0) as [->|Hl]; [|discriminate].
      intros H. eapply pss_sound; eauto. right. auto.
    + intros H. destruct (entry_sound e _ _ _ _ _ _ _ Es Hn Hpos Hok H) as (bs & H1 & H2 & H3).
      exists bs. repeat split; try apply H1; auto. congruence.
Qed.

(** The part of the input a parser may look at, and the [eof] flag it sees. *)
Definition eff (p : parser) (data : list Z) (e : bool) : list Z * bool :=
  if max_off p - p_offset p <? zlen data
  then (firstn (Z.to_nat (max_off p - p_offset p)) data, true) else (data, e).

(** No "content too large". *)
Definition fits (p : parser) (data : list Z) : Prop :=
  p_offset p <= max_off p /\ (p_max_offset p = None -> p_offset p + zlen data <= U64MAX).

Definition finish (p : parser) (e : bool) (x : res (payload * reader) * parser) : res chunk * parser :=
  match x with
  | (Ok (pl, r'), p') => (Ok (Parsed (r_pos r') pl), set_offset p' (p_offset p' + r_pos r'))
  | (Err er, p') =>
      if e then (Err er, p')
      else match e_hint er with
           | Some h => (Ok (NeedMoreData h), p')
           | None => (Err er, p')
           end
  end.

Lemma parse_eff p data e : fits p data ->
  parse p data e = finish p (snd (eff p data e))
    (parse_reader (snd (eff p data e)) p (new_reader (p_feat p) (fst (eff p data e)) (p_offset p))).
Proof.
  intros [Hle Hf]. unfold parse, eff.
  destruct (Z.ltb_spec (max_off p - p_offset p) (zlen data)) as [H|H]; cbn [andb fst snd].
  - destruct (p_max_offset p) as [m|] eqn:Em.
    + destruct (parse_reader _ _ _) as [[[pl r']|er] p']; reflexivity.
    + specialize (Hf eq_refl). unfold max_off in H. rewrite Em in H. lia.
  - destruct (parse_reader _ _ _) as [[[pl r']|er] p']; reflexivity.
Qed.

Lemma firstn_bytes_ok n l : bytes_ok l -> bytes_ok (firstn n l).
Proof. intros H. rewrite <- (firstn_skipn n l) in H. apply Forall_app in H. apply H. Qed.
Lemma skipn_bytes_ok n l : bytes_ok l -> bytes_ok (skipn n l).
Proof. intros H. rewrite <- (firstn_skipn n l) in H. apply Forall_app in H. apply H. Qed.

Lemma eff_prefix p data e : exists rest, data = fst (eff p data e) ++ rest.
Proof.
  unfold eff. destruct (_ <? _); cbn [fst].
  - exists (skipn (Z.to_nat (max_off p - p_offset p)) data). symmetry. apply firstn_skipn.
  - exists []. symmetry. apply app_nil_r.
Qed.

Lemma eff_len p data e : p_offset p <= max_off p -> zlen (fst (eff p data e)) <= max_off p - p_offset p.
Proof.
  unfold eff. intros H. destruct (Z.ltb_spec (max_off p - p_offset p) (zlen data)); cbn [fst]; [|lia].
  unfold zlen. rewrite firstn_length. lia.
Qed.

Theorem parse_sound p data e n pl p' :
  fits p data -> bytes_ok data -> counts_ok (p_counts p) ->
  parse p data e = (Ok (Parsed n pl), p') ->
  exists e' bs rest, data = bs ++ rest /\ n = zlen bs /\ pstep e' p pl bs p' /\
    p_offset p + zlen bs <= max_off p /\
    (bs = [] -> e' = true -> (rest = [] /\ e = true) \/ p_offset p = max_off p).
Proof.
  intros Hf Hok Hcnt. rewrite parse_eff by exact Hf.
  destruct (eff_prefix p data e) as [tl Etl].
  pose proof (eff_len p data e (proj1 Hf)) as Hlen.
  destruct (eff p data e) as [d e'] eqn:Ee. cbn [fst snd] in *.
  assert (Hokd : bytes_ok d).
  { rewrite Etl in Hok. apply Forall_app in Hok. apply Hok. }
  unfold finish.
  destruct (parse_reader e' p _) as [[[pl1 r']|er] p1] eqn:Ep.
  2:{ destruct e'; [discriminate|]. destruct (e_hint er); discriminate. }
  apply parse_reader_sound in Ep as (bs & Hc & Hp & Hemp); [|cbn; unfold original_position; cbn; lia|exact Hokd|exact Hcnt].
  intros H. injection H as <- <- <-.
  destruct Hc as (Hrem & Hpos & _). cbn [new_reader r_rem r_pos] in *.
  exists e', bs, (r_rem r' ++ tl). split; [rewrite app_assoc, <- Hrem; exact Etl|].
  rewrite Z.add_0_l in Hpos. split; [exact Hpos|]. split.
  - rewrite Hpos. exact Hp.
  - split.
    + rewrite Hrem, zlen_app in Hlen. pose proof (zlen_nonneg (r_rem r')). lia.
    + intros Hb He'. specialize (Hemp Hb). subst d bs. cbn [app] in *. rewrite Hemp.
      unfold eff in Ee. destruct (Z.ltb_spec (max_off p - p_offset p) (zlen data)) as [H|H].
      * right. injection Ee as E1 _. apply (f_equal (@List.length Z)) in E1.
        rewrite firstn_length, Hemp in E1. cbn in E1. unfold zlen in H. destruct Hf. lia.
      * left. injection Ee as E1 E2. split; [|congruence]. rewrite E1, Hemp in Etl. cbn. auto.
Qed.
