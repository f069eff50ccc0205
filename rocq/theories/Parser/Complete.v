(** Every [pstep] is a successful [parse]: the converse of [parse_sound]. *)
From Verif.Base Require Import Prelude Utf8 BitFacts.
From Verif.Reader Require Import Model Spec Mono.
From Verif.Leb Require Import Spec Proofs ReaderProofs.
From Verif.Parser Require Import Model Proofs Spec Stream Shape.

Lemma read_u32_fwd bs v rest pos off ft : uN 32 bs v -> bytes_ok rest ->
  read_var_u32 (mkReader (bs ++ rest) pos off ft) = Ok (v, mkReader rest (pos + zlen bs) off ft).
Proof.
  intros Hu Hok. apply read_var_u32_char.
  - apply Forall_app. split; [eapply uN_bytes; eauto|exact Hok].
  - exists bs. split; [exact Hu|]. repeat split; reflexivity.
Qed.

Lemma read_bytes_fwd bs rest pos off ft n : n = zlen bs ->
  read_bytes n (mkReader (bs ++ rest) pos off ft) = Ok (bs, mkReader rest (pos + n) off ft).
Proof.
  intros ->. unfold read_bytes, bytes_remaining, advance. cbn [r_rem r_pos r_off r_feat].
  rewrite zlen_app. pose proof (zlen_nonneg rest).
  destruct (Z.leb_spec (zlen bs) (zlen bs + zlen rest)); [|lia].
  unfold zlen at 1 2 4. rewrite Nat2Z.id, firstn_app, skipn_app, firstn_all, skipn_all, Nat.sub_diag.
  cbn [firstn skipn]. rewrite app_nil_r. reflexivity.
Qed.

Lemma skip_bytes_fwd bs rest pos off ft n : n = zlen bs ->
  skip_bytes n (mkReader (bs ++ rest) pos off ft)
  = Ok (mkReader bs 0 (off + pos) ft, mkReader rest (pos + n) off ft).
Proof. intros E. unfold skip_bytes. rewrite (read_bytes_fwd _ _ _ _ _ _ E). reflexivity. Qed.

Lemma section_limited_fwd en id cb count items rest pos off ft n :
  uN 32 cb count -> bytes_ok items -> n = zlen (cb ++ items) ->
  section n (limited_new en id) (mkReader ((cb ++ items) ++ rest) pos off ft)
  = Ok (PLimited en id (off + pos, off + pos + n) (cb ++ items) count items, mkReader rest (pos + n) off ft).
Proof.
  intros Hu Hok E. unfold section. rewrite (skip_bytes_fwd _ _ _ _ _ _ E).
  unfold limited_new. rewrite (read_u32_fwd _ _ _ _ _ _ Hu Hok). cbn [map_err_nohint].
  unfold range. cbn [r_off r_pos r_rem]. rewrite Z.add_0_r, E. reflexivity.
Qed.

Lemma section_custom_fwd nb name data rest pos off ft n :
  uN 32 nb (zlen name) -> zlen name <= MAX_WASM_STRING_SIZE -> utf8_valid name = true ->
  bytes_ok (name ++ data) -> n = zlen (nb ++ name ++ data) ->
  section n custom_new (mkReader ((nb ++ name ++ data) ++ rest) pos off ft)
  = Ok (PCustom (off + pos, off + pos + n) (nb ++ name ++ data) name data, mkReader rest (pos + n) off ft).
Proof.
  intros Hu Hn Hv Hok E. unfold section. rewrite (skip_bytes_fwd _ _ _ _ _ _ E).
  unfold custom_new, read_string, bind. rewrite (read_u32_fwd _ _ _ _ _ _ Hu Hok).
  destruct (Z.ltb_spec MAX_WASM_STRING_SIZE (zlen name)); [lia|].
  unfold internal_read_string, bind. rewrite (read_bytes_fwd name data _ _ _ _ eq_refl), Hv.
  cbn [map_err_nohint ret]. unfold range. cbn [r_off r_pos r_rem]. rewrite Z.add_0_r, E. reflexivity.
Qed.

Lemma single_item_fwd {T} (item : R T) bs v c' rest pos off ft send d :
  zlen bs < 2 ^ 32 -> send = off + pos + zlen bs ->
  item (mkReader bs 0 (off + pos) ft) = Ok (v, c') -> r_rem c' = [] ->
  single_item item send d (mkReader (bs ++ rest) pos off ft)
  = Ok ((v, (off + pos, send)), mkReader rest (pos + zlen bs) off ft).
Proof.
  intros Hl -> Hi Hc. unfold single_item, original_position. cbn [r_off r_pos].
  replace (off + pos + zlen bs - (off + pos)) with (zlen bs) by lia.
  rewrite wrapu_id by (split; [apply zlen_nonneg|exact Hl]).
  rewrite (skip_bytes_fwd bs rest _ _ _ _ eq_refl), Hi. cbn [map_err_nohint].
  unfold eof. rewrite Hc. reflexivity.
Qed.

Lemma single_u32_fwd bs v rest pos off ft send d :
  uN 32 bs v -> send = off + pos + zlen bs ->
  single_item read_var_u32 send d (mkReader (bs ++ rest) pos off ft)
  = Ok ((v, (off + pos, send)), mkReader rest (pos + zlen bs) off ft).
Proof.
  intros Hu E. eapply single_item_fwd with (c' := mkReader [] (0 + zlen bs) (off + pos) ft);
    [|exact E| |reflexivity].
  - apply uN_length in Hu; [|lia]. change ((32 + 6) / 7) with 5 in Hu. lia.
  - rewrite <- (app_nil_r bs) at 1. apply read_u32_fwd; [exact Hu|constructor].
Qed.

Lemma read_n_u32_fwd bs vs : u32s bs vs -> forall rest pos off ft, bytes_ok rest ->
  read_n (List.length vs) read_var_u32 (mkReader (bs ++ rest) pos off ft)
  = Ok (vs, mkReader rest (pos + zlen bs) off ft).
Proof.
  induction 1 as [|b v bs vs Hu Hs IH]; intros rest pos off ft Hok; cbn [read_n List.length].
  - cbn [app]. unfold ret. rewrite zlen_nil, Z.add_0_r. reflexivity.
  - unfold bind. rewrite <- app_assoc.
    assert (bytes_ok (bs ++ rest)).
    { apply Forall_app. split; [|exact Hok]. clear - Hs. induction Hs; [constructor|].
      apply Forall_app. split; [eapply uN_bytes; eauto|assumption]. }
    rewrite (read_u32_fwd _ _ _ _ _ _ Hu H), (IH _ _ _ _ Hok). unfold ret.
    rewrite zlen_app, Z.add_assoc. reflexivity.
Qed.

Lemma u32s_bytes bs vs : u32s bs vs -> bytes_ok bs.
Proof. induction 1; [constructor|]. apply Forall_app. split; [eapply uN_bytes; eauto|assumption]. Qed.

Lemma read_start_fwd fb func nb args abs rb results pos off ft :
  uN 32 fb func -> uN 32 nb (zlen args) -> zlen args <= 1000 -> u32s abs args ->
  uN 32 rb results -> results <= 1000 ->
  read_start_fn (mkReader (fb ++ nb ++ abs ++ rb) pos off ft)
  = Ok (mkStart func args results, mkReader [] (pos + zlen fb + zlen nb + zlen abs + zlen rb) off ft).
Proof.
  intros Hf Hn Hl Ha Hr Hr2.
  assert (B4 : bytes_ok rb) by (eapply uN_bytes; eauto).
  assert (B3 : bytes_ok (abs ++ rb)) by (apply Forall_app; split; [eapply u32s_bytes; eauto|exact B4]).
  assert (B2 : bytes_ok (nb ++ abs ++ rb)) by (apply Forall_app; split; [eapply uN_bytes; eauto|exact B3]).
  unfold read_start_fn, bind at 1. rewrite (read_u32_fwd _ _ _ _ _ _ Hf B2).
  unfold read_list, bind. unfold read_size at 1, bind, get_pos.
  rewrite (read_u32_fwd _ _ _ _ _ _ Hn B3).
  destruct (Z.ltb_spec 1000 (zlen args)); [lia|]. unfold ret at 1.
  unfold zlen at 1. rewrite Nat2Z.id, (read_n_u32_fwd _ _ Ha _ _ _ _ B4).
  unfold read_size, bind, get_pos. rewrite <- (app_nil_r rb) at 1.
  rewrite (read_u32_fwd _ _ _ _ _ _ Hr (Forall_nil _)).
  destruct (Z.ltb_spec 1000 results); [lia|]. reflexivity.
Qed.

(** The common part of all section arms. *)
Lemma section_head_fwd p id lenb len X off ft : 0 <= id < 128 -> uN 32 lenb len -> bytes_ok X ->
  off + (0 + 1 + zlen lenb) + len <= U64MAX -> off + (0 + 1 + zlen lenb) + len <= max_off p ->
  parse_section p (mkReader (id :: lenb ++ X) 0 off ft)
  = (if id =? 0 then lift (section len custom_new)
     else match p_enc p with
          | EModule => parse_module_section id len (off + (0 + 1 + zlen lenb)) (off + (0 + 1 + zlen lenb) + len)
          | EComponent => parse_component_section id len (off + (0 + 1)) (off + (0 + 1 + zlen lenb)) (off + (0 + 1 + zlen lenb) + len)
          end) p (mkReader X (0 + 1 + zlen lenb) off ft).
Proof.
  intros Hid Hu Hok H1 H2. unfold parse_section.
  unfold mbind at 1, lift at 1, get_pos at 1.
  unfold mbind at 1, lift at 1, read_u8. cbn [r_rem]. unfold advance. cbn [r_pos r_off r_feat].
  assert (E : Z.land id 128 = 0).
  { apply Z.bits_inj'. intros n Hn. rewrite Z.bits_0, Z.land_spec.
    change 128 with (2 ^ 7). rewrite Z.pow2_bits_eqb by lia.
    destruct (Z.eqb_spec 7 n) as [<-|]; [|apply andb_false_r]. rewrite andb_true_r.
    apply Z.testbit_false; [lia|]. rewrite Z.div_small by lia. reflexivity. }
  rewrite E. cbn [Z.eqb negb].
  unfold mbind at 1, lift at 1, get_pos at 1. unfold mbind at 1, lift at 1.
  rewrite (read_u32_fwd _ _ _ _ _ _ Hu Hok).
  unfold mbind at 1, lift at 1, get_pos at 1. unfold mbind at 1, mget.
  unfold original_position at 1 2 3 4. cbn [r_off r_pos].
  destruct (Z.ltb_spec U64MAX (off + (0 + 1 + zlen lenb) + len)); [lia|].
  destruct (Z.ltb_spec (max_off p) (off + (0 + 1 + zlen lenb) + len)); [lia|].
  cbn [orb]. unfold original_position. cbn [r_off r_pos]. reflexivity.
Qed.

(** The magic-number test does not interfere with any section. *)
Lemma pss_head_fwd e p id lenb X off ft :
  (id = 0 -> forall t, lenb ++ X <> 97 :: 115 :: 109 :: t) ->
  parse_section_start e p (mkReader (id :: lenb ++ X) 0 off ft)
  = parse_section p (mkReader (id :: lenb ++ X) 0 off ft).
Proof.
  intros Hm. unfold parse_section_start, bytes_remaining. cbn [r_rem]. rewrite zlen_cons.
  pose proof (zlen_nonneg (lenb ++ X)).
  destruct (Z.eqb_spec (1 + zlen (lenb ++ X)) 0); [lia|]. rewrite andb_false_r.
  unfold peek_bytes. cbn [r_rem]. destruct (_ <=? _) eqn:El; [|reflexivity].
  destruct (bytes_eqb _ WASM_MAGIC_NUMBER) eqn:Eb; [|reflexivity]. exfalso.
  apply bytes_eqb_eq in Eb. change (Z.to_nat 4) with 4%nat in Eb.
  unfold bytes_remaining in El. cbn [r_rem] in El. rewrite zlen_cons in El.
  destruct (lenb ++ X) as [|b1 [|b2 [|b3 t]]] eqn:EX; cbn [firstn] in Eb; unfold WASM_MAGIC_NUMBER in Eb;
    try discriminate Eb.
  injection Eb as E0 -> -> ->. apply (Hm E0 t). reflexivity.
Qed.

Lemma custom_not_magic lenb nb name data rest t :
  uN 32 lenb (zlen (nb ++ name ++ data)) -> uN 32 nb (zlen name) ->
  lenb ++ (nb ++ name ++ data) ++ rest <> 97 :: 115 :: 109 :: t.
Proof.
  intros Hl Hn E.
  destruct lenb as [|b lenb]; [apply uN_nonempty in Hl; congruence|].
  injection E as -> E.
  inversion Hl as [n b' Hb Hb2 Eq1|n b' bs m Hb Hb2 Hm Eq1]; subst; [|lia].
  destruct nb as [|b nb]; [apply uN_nonempty in Hn; congruence|].
  injection E as -> E.
  inversion Hn as [n b' Hb' Hb2' Eq1|n b' bs m Hb' Hb2' Hm Eq1]; subst; [|lia].
  repeat match goal with H : 97 = _ |- _ => symmetry in H | H : 115 = _ |- _ => symmetry in H end.
  repeat match goal with H : context [zlen (_ ++ _)] |- _ => rewrite zlen_app in H
                       | H : context [zlen (_ :: _)] |- _ => rewrite zlen_cons in H end.
  repeat match goal with H : context [zlen ?l] |- _ => lazymatch goal with _ : 0 <= zlen l |- _ => fail | _ => pose proof (zlen_nonneg l) end end.
  lia.
Qed.

Lemma at_sections_reader e p q r : at_sections p q -> parse_reader e p r = parse_section_start e q r.
Proof.
  intros [[E ->]|[E ->]]; unfold parse_reader; rewrite E; reflexivity.
Qed.

(** Stating the outcome up to the bookkeeping [parse] adds. *)
Definition delivers (e : bool) (p : parser) (pl : payload) (bs rest : list Z) (p' : parser) : Prop :=
  exists p1, parse_reader e p (mkReader (bs ++ rest) 0 (p_offset p) (p_feat p))
             = (Ok (pl, mkReader rest (zlen bs) (p_offset p) (p_feat p)), p1) /\
             p' = set_offset p1 (p_offset p1 + zlen bs).

Lemma seq_fwd {A B} (m : M A) (k : A -> M B) p r a r' p' :
  m p r = (Ok (a, r'), p') -> mbind m k p r = k a p' r'.
Proof. intros E. unfold mbind. rewrite E. reflexivity. Qed.
Lemma lift_fwd {A B} (m : R A) (k : A -> M B) p r a r' :
  m r = Ok (a, r') -> mbind (lift m) k p r = k a p r'.
Proof. intros E. unfold mbind, lift. rewrite E. reflexivity. Qed.

Lemma ordered_limited_fwd o id len s p r pl r' :
  order_ok p o s -> section len (limited_new EModule id) r = Ok (pl, r') ->
  ordered_limited o id len s p r = (Ok (pl, r'), set_order p (o, s)).
Proof.
  intros Ho Hs. unfold ordered_limited. rewrite (seq_fwd _ _ _ _ _ _ _ (order_conv _ _ _ r Ho)).
  unfold lift. rewrite Hs. reflexivity.
Qed.

Lemma module_limited_fwd id o len s se p r pl r' rg c count items :
  section_order id = Some o -> id <> 8 -> id <> 10 -> id <> 12 -> order_ok p o s ->
  section len (limited_new EModule id) r = Ok (pl, r') -> pl = PLimited EModule id rg c count items ->
  (id = 11 -> data_agree (bump id count (p_counts p))) ->
  parse_module_section id len s se p r
  = (Ok (pl, r'), set_counts (set_order p (o, s)) (bump id count (p_counts p))).
Proof.
  intros Ho H8 H10 H12 Hord Hs Epl Hd.
  assert (Hsame : set_counts (set_order p (o, s)) (p_counts p) = set_order p (o, s)) by reflexivity.
  assert (Hgen : ordered_limited o id len s p r = (Ok (pl, r'), set_order p (o, s)))
    by (apply ordered_limited_fwd; assumption).
  unfold section_order in Ho.
  repeat match type of Ho with
         | match ?x with _ => _ end = _ => destruct x; try discriminate Ho
         end; injection Ho as <-; try congruence; unfold parse_module_section, bump; cbn [Z.eqb Pos.eqb];
    rewrite ?Hsame; try exact Hgen.
  - specialize (Hd eq_refl). revert Hd. unfold bump. cbn [Z.eqb Pos.eqb]. intros Hd.
    rewrite (seq_fwd _ _ _ _ _ _ _ (order_conv _ _ _ r Hord)), (lift_fwd _ _ _ _ _ _ Hs).
    rewrite Epl in *. unfold mbind, mget, mput, lift, get_pos, mcheck. cbn [set_counts set_order p_counts].
    rewrite (dc_ok_conv _ _ Hd). reflexivity.
  - rewrite (seq_fwd _ _ _ _ _ _ _ (order_conv _ _ _ r Hord)), (lift_fwd _ _ _ _ _ _ Hs).
    unfold mbind, mget, mput, mret. rewrite Epl. reflexivity.
Qed.

Lemma zl_head p (lenb : list Z) : p_offset p + (0 + 1 + zlen lenb) = p_offset p + 1 + zlen lenb.
Proof. lia. Qed.

Lemma deliver_section e p q id lenb len s body rest pl q1 :
  at_sections p q -> header_at p id lenb len s -> bytes_ok (body ++ rest) ->
  (id = 0 -> forall t, lenb ++ body ++ rest <> 97 :: 115 :: 109 :: t) ->
  (if id =? 0 then lift (section len custom_new)
   else match p_enc q with
        | EModule => parse_module_section id len s (s + len)
        | EComponent => parse_component_section id len (p_offset p + (0 + 1)) s (s + len)
        end) q (mkReader (body ++ rest) (1 + zlen lenb) (p_offset p) (p_feat p))
  = (Ok (pl, mkReader rest (1 + zlen lenb + zlen body) (p_offset p) (p_feat p)), q1) ->
  delivers e p pl (id :: lenb ++ body) rest (set_offset q1 (p_offset q1 + zlen (id :: lenb ++ body))).
Proof.
  intros Ha (Hid & Hu & Hs & H1 & H2) Hok Hm Hd. exists q1. split; [|reflexivity].
  rewrite (at_sections_reader _ _ _ _ Ha). cbn [app]. rewrite <- app_assoc.
  rewrite (pss_head_fwd e q id lenb (body ++ rest) _ _ Hm).
  assert (Hmax : max_off q = max_off p) by (destruct Ha as [[_ ->]|[_ ->]]; reflexivity).
  rewrite (section_head_fwd q id lenb len) by (try assumption; rewrite ?Hmax; lia).
  rewrite zl_head, <- Hs. change (0 + 1 + zlen lenb) with (1 + zlen lenb). rewrite Hd.
  rewrite zlen_cons, zlen_app, Z.add_assoc. reflexivity.
Qed.

Lemma at_sections_moved p q x : at_sections p q -> set_offset q (p_offset q + x) = set_offset q (p_offset p + x).
Proof. intros [[_ ->]|[_ ->]]; reflexivity. Qed.

Lemma order_ok_q p q o s : at_sections p q -> order_ok p o s -> order_ok q o s.
Proof. intros [[_ ->]|[_ ->]]; auto. Qed.

Ltac bytes_split H :=
  unfold bytes_ok in *;
  repeat match goal with
         | H : Forall is_byte (_ ++ _) |- _ => apply Forall_app in H as [? ?]
         | H : Forall is_byte (_ :: _) |- _ => inversion H; clear H; subst
         end.

Theorem pstep_delivers e p pl bs p' rest :
  pstep e p pl bs p' -> bytes_ok (bs ++ rest) -> (bs = [] -> rest = []) ->
  delivers e p pl bs rest p'.
Proof.
  intros H Hok Hnil. inversion H as
    [Es|Es|q lenb s nb name data Ha Hh Hu Hl Hv|q id o lenb s cb count items Ha He Ho H8 H10 H12 Hh Hord Hu Hd
    |q lenb s fb func Ha He Hh Hord Hu|q lenb s cb count Ha He Hh Hord Hu
    |q lenb len s cb count Ha He Hh Hord Hu Hle Hf|n l lenb body Es Hn Hu Hle
    |q id lenb s contents Ha Hid Hk Hh|q id lenb s cb count items Ha He Hid Hh Hu
    |q id lenb len s Ha He Hid Hh Hmx|q lenb s fb func nb args abs rb results Ha He Hc Hh Hf Hn Hn2 Hab Hr Hr2
    |q Ha Ee Hf Hd]; subst.
  - exists (set_state (set_enc p EModule) SSectionStart). split; [|reflexivity].
    unfold parse_reader. rewrite Es. unfold parse_header, read_header_version, bind, read_u32, bind.
    change ([0; 97; 115; 109; 1; 0; 0; 0] ++ rest) with ([0; 97; 115; 109] ++ [1; 0; 0; 0] ++ rest).
    rewrite (read_bytes_fwd [0; 97; 115; 109] _ _ _ _ 4 eq_refl).
    change (bytes_eqb [0; 97; 115; 109] WASM_MAGIC_NUMBER) with true. cbv beta match.
    rewrite (read_bytes_fwd [1; 0; 0; 0] _ _ _ _ 4 eq_refl). unfold ret.
    change (from_le_bytes [1; 0; 0; 0]) with 1.
    change (header_encoding (wrapu 16 1) (wrapu 16 (Z.shiftr 1 16))) with (Some EModule). cbv beta match.
    unfold original_position. cbn [r_off r_pos]. rewrite Z.add_0_r. reflexivity.
  - exists (set_state (set_enc p EComponent) SSectionStart). split; [|reflexivity].
    unfold parse_reader. rewrite Es. unfold parse_header, read_header_version, bind, read_u32, bind.
    change ([0; 97; 115; 109; 13; 0; 1; 0] ++ rest) with ([0; 97; 115; 109] ++ [13; 0; 1; 0] ++ rest).
    rewrite (read_bytes_fwd [0; 97; 115; 109] _ _ _ _ 4 eq_refl).
    change (bytes_eqb [0; 97; 115; 109] WASM_MAGIC_NUMBER) with true. cbv beta match.
    rewrite (read_bytes_fwd [13; 0; 1; 0] _ _ _ _ 4 eq_refl). unfold ret.
    change (from_le_bytes [13; 0; 1; 0]) with 65549.
    change (header_encoding (wrapu 16 65549) (wrapu 16 (Z.shiftr 65549 16))) with (Some EComponent). cbv beta match.
    unfold original_position. cbn [r_off r_pos]. rewrite Z.add_0_r. reflexivity.
  - unfold moved.
    eapply (deliver_section e p q 0 lenb _ s (nb ++ name ++ data) rest); try eassumption.
    + cbn [app] in Hok. rewrite <- app_assoc in Hok. bytes_split Hok. repeat (apply Forall_app; split); auto.
    + intros _ t. apply custom_not_magic; [apply Hh|exact Hu].
    + cbn [Z.eqb]. unfold lift.
      rewrite (section_custom_fwd nb name data rest _ _ _ _ Hu Hl Hv).
      * destruct Hh as (_ & _ & -> & _). rewrite Z.add_assoc. reflexivity.
      * bytes_split Hok. apply Forall_app; auto.
      * reflexivity.
  - unfold moved.
    assert (Hoff : p_offset q = p_offset p) by (destruct Ha as [[_ ->]|[_ ->]]; reflexivity).
    replace (p_offset (set_counts (set_order q (o, s)) (bump id count (p_counts p)))) with
      (p_offset (set_counts (set_order q (o, s)) (bump id count (p_counts p)))) by reflexivity.
    eapply (deliver_section e p q id lenb _ s (cb ++ items) rest); try eassumption.
    + cbn [app] in Hok. rewrite <- app_assoc in Hok. bytes_split Hok. repeat (apply Forall_app; split); auto.
    + intros ->. discriminate Ho.
    + assert (Hid0 : (id =? 0) = false) by (destruct (Z.eqb_spec id 0); [subst; discriminate Ho|reflexivity]).
      assert (Hen : p_enc q = EModule) by (destruct Ha as [[_ ->]|[_ ->]]; exact He).
      assert (Hcq : p_counts q = p_counts p) by (destruct Ha as [[_ ->]|[_ ->]]; reflexivity).
      rewrite Hid0, Hen, <- Hcq.
      eapply module_limited_fwd; try eassumption.
      * eapply order_ok_q; eauto.
      * rewrite (section_limited_fwd EModule id cb count items rest _ _ _ _ Hu).
        -- destruct Hh as (_ & _ & -> & _). rewrite Z.add_assoc. reflexivity.
        -- bytes_split Hok. assumption.
        -- reflexivity.
      * reflexivity.
      * rewrite Hcq. exact Hd.
  - unfold moved.
    eapply (deliver_section e p q 8 lenb _ s fb rest); try eassumption.
    + cbn [app] in Hok. rewrite <- app_assoc in Hok. bytes_split Hok. repeat (apply Forall_app; split); auto.
    + discriminate.
    + assert (Hen : p_enc q = EModule) by (destruct Ha as [[_ ->]|[_ ->]]; exact He).
      rewrite Hen. cbn [Z.eqb]. unfold parse_module_section. cbn [Z.eqb Pos.eqb].
      rewrite (seq_fwd _ _ _ _ _ _ _ (order_conv _ _ _ _ (order_ok_q _ _ _ _ Ha Hord))).
      erewrite (lift_fwd _ _ _ _ _ _ (single_u32_fwd fb func rest _ _ _ _ _ Hu _)).
      Unshelve. 2: { destruct Hh as (_ & _ & -> & _). lia. }
      destruct Hh as (_ & _ & -> & _). rewrite Z.add_assoc. reflexivity.
  - unfold moved.
    eapply (deliver_section e p q 12 lenb _ s cb rest); try eassumption.
    + cbn [app] in Hok. rewrite <- app_assoc in Hok. bytes_split Hok. repeat (apply Forall_app; split); auto.
    + discriminate.
    + assert (Hen : p_enc q = EModule) by (destruct Ha as [[_ ->]|[_ ->]]; exact He).
      assert (Hcq : p_counts q = p_counts p) by (destruct Ha as [[_ ->]|[_ ->]]; reflexivity).
      rewrite Hen. cbn [Z.eqb]. unfold parse_module_section. cbn [Z.eqb Pos.eqb].
      rewrite (seq_fwd _ _ _ _ _ _ _ (order_conv _ _ _ _ (order_ok_q _ _ _ _ Ha Hord))).
      erewrite (lift_fwd _ _ _ _ _ _ (single_u32_fwd cb count rest _ _ _ _ _ Hu _)).
      Unshelve. 2: { destruct Hh as (_ & _ & -> & _). lia. }
      unfold mbind, mget, mput, mret, bump. cbn [Z.eqb Pos.eqb set_order p_counts]. rewrite <- Hcq.
      destruct Hh as (_ & _ & -> & _). rewrite Z.add_assoc. reflexivity.
  - unfold moved.
    eapply (deliver_section e p q 10 lenb _ s cb rest); try eassumption.
    + cbn [app] in Hok. rewrite <- app_assoc in Hok. bytes_split Hok. repeat (apply Forall_app; split); auto.
    + discriminate.
    + assert (Hen : p_enc q = EModule) by (destruct Ha as [[_ ->]|[_ ->]]; exact He).
      assert (Hcq : p_counts q = p_counts p) by (destruct Ha as [[_ ->]|[_ ->]]; reflexivity).
      rewrite Hen. cbn [Z.eqb]. unfold parse_module_section. cbn [Z.eqb Pos.eqb].
      rewrite (seq_fwd _ _ _ _ _ _ _ (order_conv _ _ _ _ (order_ok_q _ _ _ _ Ha Hord))).
      assert (Hde : delimited len read_var_u32 (mkReader (cb ++ rest) (1 + zlen lenb) (p_offset p) (p_feat p))
        = Ok ((count, len - zlen cb), mkReader rest (1 + zlen lenb + zlen cb) (p_offset p) (p_feat p))).
      { unfold delimited. rewrite (read_u32_fwd _ _ _ _ _ _ Hu) by (bytes_split Hok; assumption).
        unfold original_position. cbn [r_off r_pos].
        replace (len - (p_offset p + (1 + zlen lenb + zlen cb) - (p_offset p + (1 + zlen lenb)))) with (len - zlen cb) by lia.
        destruct (Z.leb_spec 0 (len - zlen cb)); [reflexivity|lia]. }
      rewrite (lift_fwd _ _ _ _ _ _ Hde).
      rewrite <- Hcq in Hf. revert Hf. unfold mbind, mget, mput, mret, mcheck, bump.
      cbn [Z.eqb Pos.eqb set_order set_counts p_counts]. intros Hf.
      rewrite (fc_ok_conv _ _ Hf). rewrite Hcq. reflexivity.
  - exists (set_state p (SFunctionBody (n - 1) (l - zlen (lenb ++ body)))). split; [|reflexivity].
    unfold parse_reader. rewrite Es. destruct (Z.eqb_spec n 0); [congruence|].
    unfold parse_body. rewrite <- app_assoc.
    assert (Hde : delimited l read_reader (mkReader (lenb ++ body ++ rest) 0 (p_offset p) (p_feat p))
      = Ok ((mkReader body 0 (p_offset p + zlen lenb) (p_feat p), l - zlen (lenb ++ body)),
            mkReader rest (zlen (lenb ++ body)) (p_offset p) (p_feat p))).
    { unfold delimited, read_reader, bind.
      rewrite (read_u32_fwd _ _ _ _ _ _ Hu) by (bytes_split Hok; apply Forall_app; split; assumption).
      rewrite (skip_bytes_fwd body rest _ _ _ _ eq_refl). unfold original_position. cbn [r_off r_pos].
      rewrite zlen_app in *. change (0 + zlen lenb) with (zlen lenb).
      replace (l - (p_offset p + (zlen lenb + zlen body) - (p_offset p + 0))) with (l - (zlen lenb + zlen body)) by lia.
      destruct (Z.leb_spec 0 (l - (zlen lenb + zlen body))); [reflexivity|lia]. }
    rewrite (lift_fwd _ _ _ _ _ _ Hde). unfold mbind, mget, mput, mret, range. cbn [r_off r_pos r_rem].
    rewrite Z.add_0_r. reflexivity.
  - unfold moved.
    eapply (deliver_section e p q id lenb _ s contents rest); try eassumption.
    + cbn [app] in Hok. rewrite <- app_assoc in Hok. bytes_split Hok. repeat (apply Forall_app; split); auto.
    + congruence.
    + assert (Hen : p_enc q = p_enc p) by (destruct Ha as [[_ ->]|[_ ->]]; reflexivity).
      destruct (Z.eqb_spec id 0); [congruence|]. rewrite Hen.
      destruct (p_enc p).
      * assert (Hall : forall k, In k [1;2;3;4;5;6;7;8;9;10;11;12;13] -> (id =? k) = false).
        { intros k Hin. destruct (Z.eqb_spec id k) as [Heq|]; [|reflexivity]. subst. cbn in Hin.
          repeat (destruct Hin as [<-|Hin]; [discriminate|]). contradiction. }
        unfold parse_module_section. rewrite !Hall by (cbn; tauto).
        unfold mbind at 1, lift at 1, get_pos. rewrite (lift_fwd _ _ _ _ _ _ (read_bytes_fwd contents rest _ _ _ _ eq_refl)).
        destruct Hh as (_ & _ & -> & _). unfold mret, original_position. cbn [r_off r_pos]. rewrite Z.add_assoc. reflexivity.
      * assert (Hall : forall k, In k [1;2;3;4;5;6;7;8;9;10;11] -> (id =? k) = false).
        { intros k Hin. destruct (Z.eqb_spec id k); [|reflexivity]. subst. cbn in Hin. lia. }
        unfold parse_component_section. rewrite !Hall by (cbn; tauto). cbn [orb].
        unfold mbind at 1, lift at 1, get_pos. rewrite (lift_fwd _ _ _ _ _ _ (read_bytes_fwd contents rest _ _ _ _ eq_refl)).
        destruct Hh as (_ & _ & -> & _). unfold mret, original_position. cbn [r_off r_pos]. rewrite Z.add_assoc. reflexivity.
  - unfold moved.
    eapply (deliver_section e p q id lenb _ s (cb ++ items) rest); try eassumption.
    + cbn [app] in Hok. rewrite <- app_assoc in Hok. bytes_split Hok. repeat (apply Forall_app; split); auto.
    + intros ->. cbn in Hid. lia.
    + assert (Hen : p_enc q = EComponent) by (destruct Ha as [[_ ->]|[_ ->]]; exact He).
      rewrite Hen.
      assert (Hsec : section (zlen (cb ++ items)) (limited_new EComponent id)
         (mkReader ((cb ++ items) ++ rest) (1 + zlen lenb) (p_offset p) (p_feat p)) =
         Ok (PLimited EComponent id (s, s + zlen (cb ++ items)) (cb ++ items) count items,
             mkReader rest (1 + zlen lenb + zlen (cb ++ items)) (p_offset p) (p_feat p))).
      { rewrite (section_limited_fwd EComponent id cb count items rest _ _ _ _ Hu).
        - destruct Hh as (_ & _ & -> & _). rewrite Z.add_assoc. reflexivity.
        - bytes_split Hok. assumption.
        - reflexivity. }
      cbn in Hid. repeat (destruct Hid as [<-|Hid]; [unfold parse_component_section; cbn [Z.eqb Pos.eqb orb];
        unfold lift; rewrite Hsec; reflexivity|]). contradiction.
  - assert (Hen : p_enc q = EComponent) by (destruct Ha as [[_ ->]|[_ ->]]; exact He).
    assert (Hof : p_offset q = p_offset p) by (destruct Ha as [[_ ->]|[_ ->]]; reflexivity).
    assert (Hft : p_feat q = p_feat p) by (destruct Ha as [[_ ->]|[_ ->]]; reflexivity).
    replace (set_offset q (s + len)) with
      (set_offset (set_offset q (p_offset q + len)) (p_offset (set_offset q (p_offset q + len)) + zlen (id :: lenb ++ []))).
    2: { destruct Hh as (_ & _ & -> & _). cbn [set_offset p_offset]. rewrite Hof, app_nil_r, zlen_cons.
         unfold set_offset. cbn. f_equal. lia. }
    replace (id :: lenb) with (id :: lenb ++ []) by (rewrite app_nil_r; reflexivity).
    replace ((id :: lenb) ++ rest) with ((id :: lenb ++ []) ++ rest) in Hok by (rewrite app_nil_r; reflexivity).
    eapply (deliver_section e p q id lenb _ s [] rest); try eassumption.
    + cbn [app] in *. bytes_split Hok. assumption.
    + intros ->. lia.
    + rewrite Hen. cbn [app].
      replace (1 + zlen lenb + zlen (@nil Z)) with (1 + zlen lenb) by (rewrite zlen_nil; lia).
      destruct Hid as [-> | ->]; cbn [Z.eqb]; unfold parse_component_section; cbn [Z.eqb Pos.eqb orb];
        (destruct (Z.ltb_spec MAX_WASM_MODULE_SIZE len); [lia|]);
        unfold mbind, mget, mput, mret, child; rewrite Hft; reflexivity.
  - unfold moved.
    eapply (deliver_section e p q 9 lenb _ s (fb ++ nb ++ abs ++ rb) rest); try eassumption.
    + cbn [app] in Hok. rewrite <- app_assoc in Hok. bytes_split Hok. repeat (apply Forall_app; split); auto.
    + discriminate.
    + assert (Hen : p_enc q = EComponent) by (destruct Ha as [[_ ->]|[_ ->]]; exact He).
      assert (Hcq : p_counts q = p_counts p) by (destruct Ha as [[_ ->]|[_ ->]]; reflexivity).
      rewrite Hen. cbn [Z.eqb]. unfold parse_component_section. cbn [Z.eqb Pos.eqb orb].
      unfold mbind at 1, mget. rewrite Hcq, Hc. unfold mbind at 1, mput.
      destruct Hh as (_ & Hul & Hs & _). apply uN_range in Hul as Hlr.
      assert (E : s + zlen (fb ++ nb ++ abs ++ rb) = p_offset p + (1 + zlen lenb) + zlen (fb ++ nb ++ abs ++ rb)) by lia.
      rewrite (lift_fwd _ _ _ _ _ _ (single_item_fwd read_start_fn (fb ++ nb ++ abs ++ rb) _ _ rest _ _ _ _ _
                 (proj2 Hlr) E (read_start_fwd fb func nb args abs rb results 0 _ _ Hf Hn Hn2 Hab Hr Hr2) eq_refl)).
      unfold mret, with_start. rewrite Hs, Z.add_assoc. reflexivity.
  - exists q. split; [|cbn [zlen]; unfold moved; rewrite zlen_nil, !Z.add_0_r; destruct Ha as [[_ ->]|[_ ->]]; reflexivity].
    rewrite (at_sections_reader _ _ _ _ Ha). rewrite (Hnil eq_refl). cbn [app].
    unfold parse_section_start, bytes_remaining. cbn [r_rem andb]. rewrite zlen_nil. cbn [Z.eqb].
    assert (Hcq : p_counts q = p_counts p) by (destruct Ha as [[_ ->]|[_ ->]]; reflexivity).
    rewrite Hcq, (fc_ok_conv _ _ Hf), (dc_ok_conv _ _ Hd). unfold original_position. cbn [r_off r_pos].
    rewrite Z.add_0_r. reflexivity.
Qed.
