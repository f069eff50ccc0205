(** The statements of Properties.v, assembled from the lemmas. *)
From Verif.Base Require Import Prelude Utf8.
From Verif.Reader Require Import Model Spec Mono.
From Verif.Leb Require Import Spec Model Proofs ReaderProofs.
From Verif.Encoder Require Import Model.
From Verif.Parser Require Import Model Proofs Spec Stream Shape Chunks Complete Tiling Module Forward.

(** ** Module mode *)
Definition mm (cur : parser) (D : list Z) : Prop :=
  p_enc cur = EModule /\ (p_state cur = SHeader -> ~ is_component D).

Lemma mm_step e p pl bs rest p' : mm p (bs ++ rest) -> pstep e p pl bs p' ->
  p_enc p' = EModule /\ p_state p' <> SHeader /\ ~ nested pl /\ ~ is_component_start pl.
Proof.
  intros [Hm Hs0] H.
  pinv H; subst; clear H;
    try (match goal with He : p_enc p = EComponent |- _ => rewrite Hm in He; discriminate end);
    try match goal with Ha : at_sections p _ |- _ => apply at_sections_facts in Ha as (Qc & Qo & Qe & Qf & Qm & Qft & Qs) end;
    unfold moved; cbn [set_offset set_state set_enc set_order set_counts p_enc p_state nested is_component_start];
    rewrite ?Qe, ?Qs; try (repeat split; auto; try discriminate; fail).
  destruct (Hs0 Es). exists rest. reflexivity.
Qed.

Lemma mm_after e p pl bs rest p' : mm p (bs ++ rest) -> pstep e p pl bs p' -> mm p' rest.
Proof. intros H Hst. destruct (mm_step _ _ _ _ _ _ H Hst) as (H1 & H2 & _). split; [exact H1|]. congruence. Qed.

(** Piecewise parsing of a module: exactly the same outcome. *)
Lemma run_module cur st buf cs e tr out :
  run cur st buf cs e tr out -> st = [] ->
  inv cur st (buf ++ List.concat cs) -> (e = true -> cs = []) ->
  mm cur (buf ++ List.concat cs) -> p_max_offset cur = None ->
  p_offset cur + zlen (buf ++ List.concat cs) + 99 <= U64MAX ->
  forall tr' out', yields (mkAll cur st (buf ++ List.concat cs) false) tr' out' ->
    tr = tr' /\ out = out'.
Proof.
  induction 1 as [cur st buf c cs tr out _ IH | cur st buf tr out _ IH
    | cur st buf cs e h cur' tr out Hp Hr IH | cur st buf cs e n pl cur' cur'' st' tr out Hp Ha Hr IH
    | cur st buf cs e n pl cur' cur'' st' Hp Ha | cur st buf cs e er cur' Hp];
    intros -> Hi He Hmm Hmx Hroom tr' out' Hy.
  - cbn [List.concat] in *. rewrite app_assoc in *. apply IH; auto. discriminate.
  - apply IH; auto.
  - pose proof (inv_fits _ _ _ Hi) as Hf. pose proof (fits_app _ _ _ Hf) as Hfb.
    pose proof (parse_more_enc _ _ _ _ _ Hfb Hp (proj1 Hmm)) as Hs.
    destruct (parse_more_frame _ _ _ _ _ Hfb Hp) as (F1 & F2 & _ & F3).
    destruct (parse_more_state _ _ _ _ _ Hfb Hp) as [F4 F5].
    apply IH; auto.
    + destruct Hi as (H1 & H2 & H3). split; [rewrite F1; exact H1|]. split; [exact H2|].
      eapply chain_frame; eauto.
    + split; [rewrite F4; apply Hmm|]. intros Hx. apply Hmm.
      destruct (parse_more_inv _ _ _ _ _ Hfb Hp) as (_ & _ & er & Hpr & Her).
      revert Hpr. unfold parse_reader. destruct (p_state cur) as [| |k l] eqn:Es; [auto| |].
      * intros Hpr. pose proof (pss_state _ _ _ _ Hpr Her) as F. unfold frame in F. congruence.
      * destruct (k =? 0).
        -- destruct (l =? 0).
           ++ intros Hpr. pose proof (pss_state _ _ _ _ Hpr Her) as F. unfold frame in F. cbn [set_state p_state] in F. congruence.
           ++ intros [= _ <-]. congruence.
        -- intros Hpr. pose proof (quiet_parse_body _ _ _ _ _ _ Hpr Her). congruence.
    + rewrite F2. exact Hmx.
    + rewrite F1. exact Hroom.
    + eapply yields_ext; [|exact Hy]. unfold all_next. cbn [a_done a_cur a_data a_stack].
      rewrite (parse_more_ext _ _ _ _ _ (List.concat cs) true Hf Hp Hs). reflexivity.
  - pose proof (inv_fits _ _ _ Hi) as Hf.
    assert (Hw : parse cur (buf ++ List.concat cs) true = (Ok (Parsed n pl), cur')).
    { destruct e; [|eapply parse_ok_ext; eauto].
      rewrite (He eq_refl). cbn [List.concat]. rewrite app_nil_r. exact Hp. }
    pose proof (inv_step _ _ _ _ _ _ _ _ Hi Hw Ha) as [Hi' _].
    pose proof Hi as (Hle & Hok & Hch). pose proof (chain_head _ _ Hch) as [_ Hcc].
    pose proof Hok as Hok2. apply Forall_app in Hok2 as [Hokb _].
    pose proof (parse_sound _ _ _ _ _ _ (fits_app _ _ _ Hf) Hokb Hcc Hp) as (e' & bs & rest & -> & -> & Hst & _).
    rewrite <- app_assoc in *. rewrite skipn_zlen_app in *.
    pose proof (mm_step _ _ _ _ _ _ Hmm Hst) as (_ & _ & Hnn & _).
    assert (cur'' = cur' /\ st' = []) as [-> ->] by (destruct pl; cbn in *; try tauto; try (split; congruence); discriminate).
    pose proof (pstep_frame _ _ _ _ _ Hst) as (Fm & Fo & _). specialize (Fo Hnn).
    apply yields_inv in Hy. rewrite Hw, Ha in Hy. destruct Hy as (t & -> & Hy). rewrite skipn_zlen_app in Hy.
    destruct (IH eq_refl Hi' He (mm_after _ _ _ _ _ _ Hmm Hst) (eq_trans Fm Hmx)) with (tr' := t) (out' := out') as [-> ->]; auto.
    rewrite Fo. rewrite zlen_app in Hroom. lia.
  - pose proof (inv_fits _ _ _ Hi) as Hf.
    assert (Hw : parse cur (buf ++ List.concat cs) true = (Ok (Parsed n pl), cur')).
    { destruct e; [|eapply parse_ok_ext; eauto].
      rewrite (He eq_refl). cbn [List.concat]. rewrite app_nil_r. exact Hp. }
    apply yields_inv in Hy. rewrite Hw, Ha in Hy. destruct Hy as [-> ->]. auto.
  - pose proof (inv_fits _ _ _ Hi) as Hf.
    assert (Hw : exists p'', parse cur (buf ++ List.concat cs) true = (Err er, p'')).
    { destruct e.
      - rewrite (He eq_refl). cbn [List.concat]. rewrite app_nil_r. eauto.
      - destruct (parse_err_ext _ _ (List.concat cs) _ _ Hf Hp) as (e1 & p1 & E1 & [->|[_ Ht]]); [eauto|].
        exfalso. unfold tight, max_off in Ht. rewrite Hmx in Ht. pose proof (zlen_nonneg (buf ++ List.concat cs)). lia. }
    destruct Hw as (p'' & Hw).
    apply yields_inv in Hy. rewrite Hw in Hy. destruct Hy as [-> ->]. auto.
Qed.

(** ** Driven parsers *)
Lemma driven_inv off cs0 cur st buf cs e : 0 <= off -> off + zlen (List.concat cs0) <= U64MAX -> bytes_ok (List.concat cs0) ->
  driven off cs0 cur st buf cs e ->
  inv cur st (buf ++ List.concat cs) /\ (e = true -> cs = []).
Proof.
  intros H1 H2 H3. induction 1 as [|cur st buf c cs Hd IH|cur st buf Hd IH|cur st buf cs e h cur' Hd IH Hp|cur st buf cs e n pl cur' cur'' st' Hd IH Hp Ha].
  - cbn [app]. split; [apply inv_new; auto|discriminate].
  - destruct IH as [Hi He]. cbn [List.concat] in Hi. rewrite app_assoc in Hi. split; [exact Hi|discriminate].
  - destruct IH as [Hi He]. auto.
  - destruct IH as [Hi He]. split; [|exact He].
    pose proof (inv_fits _ _ _ Hi) as Hf.
    destruct (parse_more_frame _ _ _ _ _ (fits_app _ _ _ Hf) Hp) as (F1 & F2 & _ & F3).
    destruct Hi as (I1 & I2 & I3). split; [rewrite F1; exact I1|]. split; [exact I2|]. eapply chain_frame; eauto.
  - destruct IH as [Hi He]. split; [|exact He].
    pose proof (inv_fits _ _ _ Hi) as Hf.
    assert (Hw : parse cur (buf ++ List.concat cs) true = (Ok (Parsed n pl), cur')).
    { destruct e; [|eapply parse_ok_ext; eauto].
      rewrite (He eq_refl). cbn [List.concat]. rewrite app_nil_r. exact Hp. }
    pose proof (inv_step _ _ _ _ _ _ _ _ Hi Hw Ha) as [Hi' _].
    pose proof Hi as (Hle & Hok & Hch). pose proof (chain_head _ _ Hch) as [_ Hcc].
    pose proof Hok as Hok2. apply Forall_app in Hok2 as [Hokb _].
    pose proof (parse_sound _ _ _ _ _ _ (fits_app _ _ _ Hf) Hokb Hcc Hp) as (e' & bs & rest & -> & -> & Hst & _).
    rewrite <- app_assoc in *. rewrite skipn_zlen_app in *. exact Hi'.
Qed.

Lemma protocol off cs0 cur st buf cs e : 0 <= off -> off + zlen (List.concat cs0) <= U64MAX -> bytes_ok (List.concat cs0) ->
  driven off cs0 cur st buf cs e ->
  match fst (parse cur buf e) with
  | Ok (NeedMoreData h) => e = false /\ 0 < h
  | Ok (Parsed n pl) => 0 <= n <= zlen buf /\ (n = 0 <-> is_end_payload pl = true)
  | Err _ => True
  end.
Proof.
  intros H1 H2 H3 Hd. destruct (driven_inv _ _ _ _ _ _ _ H1 H2 H3 Hd) as [Hi He].
  pose proof (fits_app _ _ _ (inv_fits _ _ _ Hi)) as Hf.
  destruct (parse cur buf e) as [[[h|n pl]|er] cur'] eqn:Ep; cbn [fst]; [| |exact I].
  - split; [|eapply parse_hint_pos; eauto]. apply parse_more_inv in Ep as [E _]; auto.
  - pose proof Hi as (Hle & Hok & Hch). pose proof (chain_head _ _ Hch) as [_ Hcc].
    apply Forall_app in Hok as [Hokb _].
    pose proof (parse_sound _ _ _ _ _ _ Hf Hokb Hcc Ep) as (e' & bs & rest & -> & -> & Hst & _).
    rewrite zlen_app. pose proof (zlen_nonneg bs). pose proof (zlen_nonneg rest). split; [lia|].
    destruct (is_end_payload pl) eqn:Ee.
    + destruct pl; try discriminate Ee. destruct (pstep_end _ _ _ _ _ Hst I) as [-> _]. split; reflexivity.
    + split; [|discriminate]. intros Hz. exfalso.
      apply pstep_nonempty in Hst; [|destruct pl; cbn; auto; discriminate].
      apply Hst. apply zlen_zero. lia.
Qed.

(** ** Accepting a module *)
Lemma mm_new off data : ~ is_component data -> mm (new_parser off) data.
Proof. intros H. split; [reflexivity|auto]. Qed.

Lemma module_start off data tr out : 0 <= off -> off + zlen data <= U64MAX -> bytes_ok data -> ~ is_component data ->
  yields (parse_all_of (new_parser off) data) tr out ->
  (tr = [] /\ out <> None) \/
  exists bytes tr' p1, data = module_header ++ bytes /\ tr = PVersion 1 EModule (off, off + 8) :: tr' /\
    yields (mkAll p1 [] bytes false) tr' out /\ inv p1 [] bytes /\ minv p1 /\ p_state p1 = SSectionStart /\
    p_offset p1 = off + 8 /\ fst (p_order p1) = 0 /\ p_counts p1 = counts0 /\ p_max_offset p1 = None.
Proof.
  intros H1 H2 H3 Hnc Hy. pose proof (inv_new _ _ H1 H2 H3) as Hi.
  unfold parse_all_of in Hy. apply yields_inv in Hy.
  destruct (parse (new_parser off) data true) as [[[h|n pl]|er] cur'] eqn:Ep; [contradiction| |].
  2:{ destruct Hy as [-> ->]. left. split; [reflexivity|discriminate]. }
  right. pose proof (parse_sound _ _ _ _ _ _ (inv_fits _ _ _ Hi) H3 (proj2 (chain_head _ _ (proj2 (proj2 Hi)))) Ep)
    as (e' & bs & rest & -> & -> & Hst & _).
  assert (Hcase : pl = PVersion 1 EModule (off, off + 8) /\ bs = module_header /\
     cur' = moved (set_state (set_enc (new_parser off) EModule) SSectionStart) module_header).
  { pinv Hst; subst; try (match goal with Ha : at_sections _ _ |- _ => destruct Ha as [[E _]|[E _]]; discriminate E end); try discriminate Es.
    - auto.
    - exfalso. apply Hnc. exists rest. reflexivity. }
  destruct Hcase as (-> & -> & ->). cbn [after_payload] in Hy. destruct Hy as (t & -> & Hy).
  rewrite skipn_zlen_app in Hy.
  match type of Hy with yields (mkAll ?p _ _ _) _ _ => exists rest, t, p end.
  pose proof (inv_step _ _ _ _ _ _ _ _ Hi Ep eq_refl) as [Hi' _]. rewrite skipn_zlen_app in Hi'.
  split; [reflexivity|]. split; [reflexivity|]. split; [exact Hy|]. split; [exact Hi'|].
  unfold moved. cbn [new_parser set_offset set_state set_enc p_state p_offset p_order p_counts p_max_offset].
  change (zlen module_header) with 8.
  split; [|repeat split; auto].
  constructor; cbn; try congruence; try discriminate; try lia.
Qed.

Lemma mpath_tiles p data tr p' : mpath p data tr p' -> minv p -> tiles (p_offset p) data tr /\ p_offset p' = p_offset p + zlen data.
Proof.
  induction 1 as [p|p pl bs p1 dt tr p2 Hst Hne Hlim Hp IH]; intros Hm.
  - change (zlen (@nil Z)) with 0. split; [constructor|lia].
  - pose proof (minv_step _ _ _ _ _ Hm Hst) as [Hm1 Hnn].
    pose proof (pstep_frame _ _ _ _ _ Hst) as (_ & Fo & _). specialize (Fo Hnn).
    destruct (IH Hm1) as [IH1 IH2]. rewrite Fo in IH1, IH2. split.
    + constructor; [|exact IH1]. eapply pstep_framed; eauto.
    + rewrite zlen_app. lia.
Qed.

Lemma accept_iff off data tr : 0 <= off -> off + zlen data <= U64MAX -> bytes_ok data -> ~ is_component data ->
  (yields (parse_all_of (new_parser off) data) tr None <-> accepted off data tr).
Proof.
  intros H1 H2 H3 Hc. split.
  - intros Hy. destruct (module_start _ _ _ _ H1 H2 H3 Hc Hy) as [[_ E]|(bytes & tr' & p1 & -> & -> & Hy1 & Hi & Hm & Hs & Ho & Hor & Hcn & Hmx)]; [congruence|].
    destruct (module_path _ _ _ Hy1 Hi Hm Hmx) as (tr0 & p2 & q & -> & Hp & Ha & Hf & Hd & Hend & Hm2).
    destruct (path_shows _ _ _ _ _ p1 q (le_n _) Hp (or_introl (conj Hs eq_refl)) Ha Hm) as [secs Hsh].
    rewrite Ho in Hsh. exists secs, bytes, tr0. split; [reflexivity|]. split; [exact Hsh|].
    pose proof (path_ordered _ _ _ _ Hp Hm) as Hord. rewrite (shows_all_sections _ _ _ _ Hsh), Hor in Hord.
    split; [apply in_order_iff; exact Hord|].
    destruct (path_counts _ _ _ _ Hp Hm) as (C1 & C2 & C3 & C4 & _ & C6).
    rewrite Hcn in C1, C2, C3. cbn [fents cents dents counts0 function_entries code_entries data_entries] in C1, C2, C3.
    assert (Hb : bodies_left (p_state p2) = 0) by (destruct Ha as [[-> _]|[-> _]]; reflexivity).
    rewrite Hs, Hb in C4. cbn [bodies_left] in C4. 
    assert (Hfa : fents (p_counts p2) = cents (p_counts p2)) by exact Hf.
    split; [lia|]. split.
    + intros n rg Hin. apply C6 in Hin. specialize (Hd _ Hin). change (n = dents (p_counts p2)) in Hd. lia.
    + rewrite Hend, Ho, zlen_app. change (zlen module_header) with 8. do 4 f_equal. lia.
  - intros (secs & bytes & pls & -> & Hsh & Hord & Hfc & Hdc & ->).
    change [0; 97; 115; 109; 1; 0; 0; 0] with module_header in *.
    pose proof (inv_new _ _ H1 H2 H3) as Hi.
    set (p1 := moved (set_state (set_enc (new_parser off) EModule) SSectionStart) module_header).
    assert (Ep : parse (new_parser off) (module_header ++ bytes) true = (Ok (Parsed 8 (PVersion 1 EModule (off, off + 8))), p1)).
    { apply (parse_complete (new_parser off) (PVersion 1 EModule (off, off + 8)) module_header bytes p1 true); auto.
      - eapply inv_fits; eauto.
      - change (zlen module_header) with 8. unfold max_off. cbn [new_parser p_max_offset p_offset].
        rewrite zlen_app in H2. change (zlen module_header) with 8 in H2. pose proof (zlen_nonneg bytes). lia.
      - exact (ps_module_header true (new_parser off) eq_refl). }
    pose proof (inv_step _ _ _ _ _ _ _ _ Hi Ep eq_refl) as [Hi' _].
    change 8 with (zlen module_header) in Hi' at 1. rewrite skipn_zlen_app in Hi'.
    assert (Ho : p_offset p1 = off + 8) by reflexivity.
    assert (Hm : minv p1).
    { constructor; cbn; try congruence; try discriminate; try lia. change (zlen module_header) with 8. lia. }
    eapply (yields_item _ _ (mkAll p1 [] bytes false)).
    + unfold parse_all_of, all_next. cbn [a_done a_cur a_data a_stack]. rewrite Ep. cbn [after_payload].
      reflexivity.
    + reflexivity.
    + assert (Hab : announced pls = bodies_of pls).
      { clear - Hsh. induction Hsh as [|pos id data lenb pls secs bytes tr Hu Hs Hall IH]; [reflexivity|].
        rewrite announced_app, bodies_app, IH. f_equal.
        inversion Hs; subst; cbn [announced bodies_of]; try reflexivity.
        match goal with Hc : code_entries_at _ _ _ |- _ => pose proof (entries_none _ _ _ Hc) as (_ & -> & -> & _) end. lia. }
      destruct (shows_path _ _ _ _ Hsh p1 p1) as (p2 & q2 & Hp & Ha).
      * exact Ho.
      * left. split; reflexivity.
      * exact Hm.
      * apply in_order_iff. exact Hord.
      * unfold max_off. cbn [p1 moved set_offset set_state set_enc new_parser p_max_offset].
        rewrite zlen_app in H2. change (zlen module_header) with 8 in H2. lia.
      * unfold max_off. cbn. lia.
      * cbn [p1 moved set_offset set_state set_enc new_parser p_counts counts0 fents cents function_entries code_entries]. lia.
      * cbn [p1 moved set_offset set_state set_enc new_parser p_counts counts0 data_count]. discriminate.
      * intros n rg Hin. cbn [p1 moved set_offset set_state set_enc new_parser p_counts counts0 dents data_entries].
        rewrite (Hdc n rg Hin). lia.
      * destruct (path_counts _ _ _ _ Hp Hm) as (C1 & C2 & C3 & _ & _ & _).
        destruct (mpath_tiles _ _ _ _ Hp Hm) as [_ Hend].
        replace (off + zlen (module_header ++ bytes)) with (p_offset p2)
          by (rewrite Hend, Ho, zlen_app; change (zlen module_header) with 8; lia).
        cbn [p1 moved set_offset set_state set_enc new_parser p_counts counts0 fents cents dents function_entries code_entries data_entries] in C1, C2, C3.
        eapply path_yields; eauto.
        -- change (fents (p_counts p2) = cents (p_counts p2)). lia.
        -- intros n Hn. change (n = dents (p_counts p2)).
           destruct (path_data_count _ _ _ _ _ Hp Hm Hn) as [Hx|[rg Hx]]; [discriminate Hx|].
           rewrite (Hdc _ _ Hx). lia.
Qed.

Lemma tiles_app pos a b t1 t2 : tiles pos a t1 -> tiles (pos + zlen a) b t2 -> tiles pos (a ++ b) (t1 ++ t2).
Proof.
  induction 1 as [pos|pos pl bs data tr Hf Ht IH]; cbn [app].
  - change (zlen (@nil Z)) with 0. rewrite Z.add_0_r. auto.
  - rewrite <- app_assoc. intros H2. constructor; [exact Hf|]. apply IH. rewrite zlen_app, Z.add_assoc in H2. exact H2.
Qed.

Lemma module_tiles off data tr : 0 <= off -> off + zlen data <= U64MAX -> bytes_ok data -> ~ is_component data ->
  yields (parse_all_of (new_parser off) data) tr None ->
  tiles off data tr /\ exists tr0, tr = tr0 ++ [PEnd (off + zlen data)].
Proof.
  intros H1 H2 H3 Hc Hy.
  destruct (module_start _ _ _ _ H1 H2 H3 Hc Hy) as [[_ E]|(bytes & tr' & p1 & -> & -> & Hy1 & Hi & Hm & Hs & Ho & Hor & Hcn & Hmx)]; [congruence|].
  destruct (module_path _ _ _ Hy1 Hi Hm Hmx) as (tr0 & p2 & q & -> & Hp & Ha & Hf & Hd & Hend & Hm2).
  destruct (mpath_tiles _ _ _ _ Hp Hm) as [Ht _]. rewrite Ho in Ht.
  rewrite zlen_app in *. change (zlen module_header) with 8 in *. split.
  - constructor; [split; reflexivity|]. change (zlen module_header) with 8.
    rewrite <- (app_nil_r bytes). apply tiles_app; [exact Ht|].
    rewrite Hend, Ho. change (@nil Z) with (@nil Z ++ []). constructor; [split; reflexivity|constructor].
  - exists (PVersion 1 EModule (off, off + 8) :: tr0). cbn [app]. rewrite Hend, Ho. do 4 f_equal. lia.
Qed.
