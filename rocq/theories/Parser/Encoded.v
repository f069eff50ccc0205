(** Modules built with wasm-encoder parse back; skipping the code section. *)
From Verif.Base Require Import Prelude Utf8.
From Verif.Reader Require Import Model Spec Mono.
From Verif.Leb Require Import Spec Model Proofs ReaderProofs.
From Verif.Encoder Require Import Model.
From Verif.Parser Require Import Model Proofs Spec Stream Shape Chunks Complete Tiling Module Forward Top.

Lemma enc_u32_uN v b : in_u 32 v -> encode_u32 v = Some b -> uN 32 b v.
Proof. intros [H1 H2] E. apply (enc_u_correct 5); [exact E|split; assumption|lia]. Qed.

Lemma enc_usize_uN v b : 0 <= v -> encode_usize v = Some b -> uN 32 b v.
Proof.
  unfold encode_usize. intros H. destruct (Z.leb_spec v (2 ^ 32 - 1)); [|discriminate].
  intros E. apply (enc_u_correct 5); [exact E|lia|lia].
Qed.

Lemma encode_bytes_shape data b : encode_bytes data = Some b -> exists lenb, b = lenb ++ data /\ uN 32 lenb (zlen data).
Proof.
  unfold encode_bytes. destruct (encode_usize (zlen data)) as [l|] eqn:E; [|discriminate]. intros [= <-].
  exists l. split; [reflexivity|]. apply enc_usize_uN; [apply zlen_nonneg|exact E].
Qed.

Lemma code_bytes_shape bodies : forall bs, code_bytes bodies = Some bs -> forall pos,
  exists ents, code_entries_at pos bs ents /\ zlen ents = zlen bodies /\
    Forall2 (fun b e => exists rg, e = PCodeEntry rg b) bodies ents.
Proof.
  induction bodies as [|b bodies IH]; intros bs E pos.
  - injection E as <-. exists []. split; [constructor|]. split; [reflexivity|constructor].
  - cbn [code_bytes] in E. destruct (encode_bytes b) as [x|] eqn:Ex; [|discriminate].
    destruct (code_bytes bodies) as [y|] eqn:Ey; [|discriminate]. injection E as <-.
    apply encode_bytes_shape in Ex as (lenb & -> & Hu).
    destruct (IH _ eq_refl (pos + zlen lenb + zlen b)) as (ents & H1 & H2 & H3).
    exists (PCodeEntry (pos + zlen lenb, pos + zlen lenb + zlen b) b :: ents).
    rewrite <- app_assoc. split; [constructor; assumption|]. split; [rewrite !zlen_cons; lia|].
    constructor; [eauto|exact H3].
Qed.

Lemma tsection_shape t a : tsection_ok t -> encode_tsection t = Some a -> forall pos,
  exists lenb data pls, a = lenb ++ data /\ uN 32 lenb (zlen data) /\
    shows (pos + 1 + zlen lenb) (tsection_id t) data pls /\ tells t pls /\
    items_of 3 pls = declared 3 [t] /\ items_of 11 pls = declared 11 [t] /\ bodies_of pls = defined [t] /\
    (forall n rg, In (PDataCount n rg) pls -> In (TDataCount n) [t]).
Proof.
  intros Hok E pos. destruct t as [name dt|id count items|f|n|bodies|id dt]; cbn [encode_tsection tsection_id tsection_ok] in *.
  - unfold encode_custom in E. unfold encoding_size in E.
    destruct (encode_u32 (zlen name)) as [nm|] eqn:En; [|discriminate].
    destruct (encode_bytes name) as [nmb|] eqn:Eb; [|discriminate].
    destruct (encode_usize (zlen nm + zlen name + zlen dt)) as [l|] eqn:El; [|discriminate]. injection E as <-.
    assert (nmb = nm ++ name) as ->.
    { unfold encode_bytes, encode_usize in Eb. destruct (_ <=? _); [|discriminate]. rewrite En in Eb. congruence. }
    destruct Hok as (H1 & H2 & H3 & H4).
    assert (Hu : uN 32 nm (zlen name)).
    { apply encode_bytes_shape in Eb as (lenb & E & Hu). apply app_inv_tail in E. subst lenb. exact Hu. }
    exists l, (nm ++ name ++ dt), [PCustom (pos + 1 + zlen l, pos + 1 + zlen l + zlen (nm ++ name ++ dt)) (nm ++ name ++ dt) name dt].
    split; [rewrite !app_assoc; reflexivity|]. split.
    { apply enc_usize_uN; [apply zlen_nonneg|]. rewrite !zlen_app, Z.add_assoc. exact El. }
    split; [constructor; assumption|]. split; [cbn; eauto|]. repeat split; try reflexivity.
    intros n rg [E|[]]; discriminate E.
  - unfold encode_section, encoding_size in E. destruct (encode_u32 count) as [c|] eqn:Ec; [|discriminate].
    destruct (encode_usize (zlen c + zlen items)) as [l|] eqn:El; [|discriminate]. injection E as <-.
    destruct Hok as (H1 & H2 & H3).
    exists l, (c ++ items), [PLimited EModule id (pos + 1 + zlen l, pos + 1 + zlen l + zlen (c ++ items)) (c ++ items) count items].
    split; [reflexivity|]. split.
    { apply enc_usize_uN; [apply zlen_nonneg|]. rewrite zlen_app. exact El. }
    split; [constructor; [assumption|apply enc_u32_uN; assumption]|]. split; [cbn; eauto|]. repeat split; try reflexivity.
    intros n rg [E|[]]; discriminate E.
  - unfold encode_single_u32, encoding_size in E. destruct (encode_u32 f) as [c|] eqn:Ec; [|discriminate].
    destruct (encode_usize (zlen c)) as [l|] eqn:El; [|discriminate]. injection E as <-.
    exists l, c, [PStart f (pos + 1 + zlen l, pos + 1 + zlen l + zlen c)].
    split; [reflexivity|]. split; [apply enc_usize_uN; [apply zlen_nonneg|exact El]|].
    split; [constructor; apply enc_u32_uN; assumption|]. split; [cbn; eauto|]. repeat split; try reflexivity.
    intros n rg [E|[]]; discriminate E.
  - unfold encode_single_u32, encoding_size in E. destruct (encode_u32 n) as [c|] eqn:Ec; [|discriminate].
    destruct (encode_usize (zlen c)) as [l|] eqn:El; [|discriminate]. injection E as <-.
    exists l, c, [PDataCount n (pos + 1 + zlen l, pos + 1 + zlen l + zlen c)].
    split; [reflexivity|]. split; [apply enc_usize_uN; [apply zlen_nonneg|exact El]|].
    split; [constructor; apply enc_u32_uN; assumption|]. split; [cbn; eauto|]. repeat split; try reflexivity.
    intros m rg [E|[]]; injection E as -> _. left. reflexivity.
  - unfold encode_code in E. destruct (code_bytes bodies) as [bs|] eqn:Ebs; [|discriminate].
    unfold encode_section, encoding_size in E. destruct (encode_u32 (zlen bodies)) as [c|] eqn:Ec; [|discriminate].
    destruct (encode_usize (zlen c + zlen bs)) as [l|] eqn:El; [|discriminate]. injection E as <-.
    destruct (code_bytes_shape _ _ Ebs (pos + 1 + zlen l + zlen c)) as (ents & H1 & H2 & H3).
    exists l, (c ++ bs), (PCodeStart (zlen ents) (pos + 1 + zlen l, pos + 1 + zlen l + zlen (c ++ bs)) (zlen bs) :: ents).
    split; [reflexivity|]. split.
    { apply enc_usize_uN; [apply zlen_nonneg|]. rewrite zlen_app. exact El. }
    split.
    { constructor; [rewrite H2; apply enc_u32_uN; [split; [apply zlen_nonneg|apply Hok]|exact Ec]|exact H1]. }
    split.
    { cbn. rewrite H2. do 3 eexists. split; [reflexivity|exact H3]. }
    pose proof (entries_none _ _ _ H1) as (N1 & N2 & N3 & N4 & _).
    cbn [items_of bodies_of declared defined]. rewrite !N1, N3. repeat split; auto; try lia.
    intros n rg [E|E]; [discriminate E|]. exfalso. eapply N4; eauto.
  - apply encode_bytes_shape in E as (l & -> & Hu).
    exists l, dt, [PUnknown id dt (pos + 1 + zlen l, pos + 1 + zlen l + zlen dt)].
    split; [reflexivity|]. split; [exact Hu|].
    split; [constructor; apply Hok|]. split; [cbn; eauto|]. repeat split; try reflexivity.
    intros n rg [E|[]]; discriminate E.
Qed.

Lemma declared_cons id t ts : declared id (t :: ts) = declared id [t] + declared id ts.
Proof. destruct t; cbn [declared]; lia. Qed.
Lemma defined_cons t ts : defined (t :: ts) = defined [t] + defined ts.
Proof. destruct t; cbn [defined]; lia. Qed.

Lemma append_all_shape ts : forall bytes, Forall tsection_ok ts -> append_all ts = Some bytes -> forall pos,
  exists secs groups, shows_all pos secs bytes (List.concat groups) /\ Forall2 tells ts groups /\
    map fst secs = map tsection_id ts /\
    items_of 3 (List.concat groups) = declared 3 ts /\ items_of 11 (List.concat groups) = declared 11 ts /\
    bodies_of (List.concat groups) = defined ts /\
    (forall n rg, In (PDataCount n rg) (List.concat groups) -> In (TDataCount n) ts).
Proof.
  induction ts as [|t ts IH]; intros bytes Hok E pos.
  - injection E as <-. exists [], []. repeat split; try constructor. intros n rg [].
  - cbn [append_all] in E. destruct (encode_tsection t) as [a|] eqn:Ea; [|discriminate].
    destruct (append_all ts) as [b|]; [|discriminate]. injection E as <-.
    inversion Hok as [|? ? Ht Hts]; subst.
    destruct (tsection_shape _ _ Ht Ea pos) as (lenb & data & pls & -> & Hu & Hs & Htl & I3 & I11 & Ib & Idc).
    destruct (IH _ Hts eq_refl (pos + 1 + zlen lenb + zlen data)) as (secs & groups & Hall & Hf & Hm & J3 & J11 & Jb & Jdc).
    exists ((tsection_id t, data) :: secs), (pls :: groups).
    cbn [List.concat map fst]. rewrite declared_cons, (declared_cons 11), defined_cons, !items_app, bodies_app, <- app_assoc.
    repeat split; try congruence.
    + constructor; assumption.
    + constructor; assumption.
    + intros n rg Hin. apply in_app_or in Hin as [Hin|Hin]; [|right; eauto].
      destruct (Idc _ _ Hin) as [<-|[]]. left. reflexivity.
Qed.

Lemma module_build_parses ts data : module_build ts = Some data ->
  Forall tsection_ok ts -> in_order (map tsection_id ts) -> declared 3 ts = defined ts ->
  (forall n, In (TDataCount n) ts -> n = declared 11 ts) -> bytes_ok data -> zlen data <= U64MAX ->
  exists groups, Forall2 tells ts groups /\
    yields (parse_all_of (new_parser 0) data)
      (PVersion 1 EModule (0, 8) :: List.concat groups ++ [PEnd (zlen data)]) None.
Proof.
  unfold module_build. destruct (append_all ts) as [bytes|] eqn:E; [|discriminate]. intros [= <-] Hok Hord Hfd Hdc Hb Hl.
  destruct (append_all_shape _ _ Hok E 8) as (secs & groups & Hall & Hf & Hm & J3 & J11 & Jb & Jdc).
  exists groups. split; [exact Hf|].
  apply accept_iff; auto; try lia.
  - intros [t Et]. discriminate Et.
  - exists secs, bytes, (List.concat groups). split; [reflexivity|]. split; [exact Hall|].
    split; [rewrite Hm; exact Hord|]. split; [congruence|]. split.
    + intros n rg Hin. rewrite J11. eauto.
    + reflexivity.
Qed.

Lemma module_finish_reports secs data tr : module_finish secs = Some data -> bytes_ok data -> zlen data <= U64MAX ->
  yields (parse_all_of (new_parser 0) data) tr None ->
  Forall2 (reports data) secs (sections_of tr).
Proof.
  unfold module_finish. destruct (module_sections secs) as [bytes|] eqn:E; [|discriminate]. intros [= <-] Hb Hl Hy.
  assert (Hc : ~ is_component (module_header ++ bytes)) by (intros [t Et]; discriminate Et).
  destruct (module_start 0 _ _ _ ltac:(lia) Hl Hb Hc Hy) as [[_ Ex]|(by' & tr' & p1 & Eh & -> & Hy1 & Hi & Hm & Hs & Ho & Hor & Hcn & Hmx)]; [congruence|].
  injection Eh as <-.
  destruct (module_path _ _ _ Hy1 Hi Hm Hmx) as (tr0 & p2 & q & -> & Hp & Ha & Hf & Hd & Hend & Hm2).
  cbn [sections_of]. rewrite sections_app. cbn [sections_of]. rewrite app_nil_r.
  change (0 :: 97 :: 115 :: 109 :: 1 :: 0 :: 0 :: 0 :: bytes) with (module_header ++ bytes).
  eapply (align secs bytes p1 tr0 p2 p1 q module_header); eauto. left. split; [exact Hs|reflexivity].
Qed.

(** ** Skipping the code section *)
Lemma reads_bodies_state p data tr p2 rest : reads_bodies p data tr p2 rest -> forall n l0,
  p_state p = SFunctionBody n l0 -> fits p data -> p_offset p + zlen data <= U64MAX -> bytes_ok data -> counts_ok (p_counts p) ->
  exists d, data = d ++ rest /\ p_state p2 = SFunctionBody (n - zlen tr) (l0 - zlen d) /\
    p2 = set_state (set_offset p (p_offset p + zlen d)) (SFunctionBody (n - zlen tr) (l0 - zlen d)).
Proof.
  induction 1 as [p dd|p dd nn rg bd p1 tr p2 rest Hp Hreads IH]; intros k l0 Hs Hfit0 Hroom0 Hok Hcnt0.
  - exists []. change (zlen (@nil Z)) with 0. change (zlen (@nil payload)) with 0. rewrite !Z.sub_0_r, Z.add_0_r.
    split; [reflexivity|]. split; [exact Hs|]. rewrite parser_eq; auto.
  - pose proof (parse_sound _ _ _ _ _ _ Hfit0 Hok Hcnt0 Hp) as (e' & bs & rs & -> & -> & Hst & Hlim & _).
    rewrite skipn_zlen_app in *. 
    assert (Hp1 : p1 = moved (set_state p (SFunctionBody (k - 1) (l0 - zlen bs))) bs).
    { pinv Hst; subst; try (destruct (id =? 1); discriminate). rewrite Hs in Es. injection Es as -> ->. reflexivity. }
    pose proof (pstep_frame _ _ _ _ _ Hst) as (Fm & Fo & Fc). specialize (Fo (fun x => x)).
    rewrite zlen_app in Hroom0. pose proof (zlen_nonneg bs). pose proof (zlen_nonneg rs).
    destruct (IH (k - 1) (l0 - zlen bs)) as (d & -> & E1 & E2).
    + rewrite Hp1. reflexivity.
    + split; [rewrite Fo; unfold max_off in *; rewrite Fm; lia|]. intros _. lia.
    + lia.
    + apply Forall_app in Hok. apply Hok.
    + apply Fc. exact Hcnt0.
    + exists (bs ++ d). rewrite <- app_assoc. split; [reflexivity|].
      rewrite zlen_cons, zlen_app.
      assert (Hx : p2 = set_state (set_offset p (p_offset p + (zlen bs + zlen d))) (SFunctionBody (k - (1 + zlen tr)) (l0 - (zlen bs + zlen d)))).
      { rewrite E2, Hp1. unfold moved, set_state, set_offset. cbn. f_equal; [f_equal; lia|lia]. }
      split; [rewrite Hx; reflexivity|exact Hx].
Qed.

Lemma skip_same off cs0 cur st buf cs e nn cnt rg size p1 :
  0 <= off -> off + zlen (List.concat cs0) <= U64MAX -> bytes_ok (List.concat cs0) ->
  driven off cs0 cur st buf cs e ->
  parse cur buf e = (Ok (Parsed nn (PCodeStart cnt rg size)), p1) ->
  exists q, skip_section p1 = Some q /\
    forall tr p2 rest, reads_bodies p1 (skipn (Z.to_nat nn) buf) tr p2 rest ->
      zlen tr = cnt -> zlen (skipn (Z.to_nat nn) buf) - zlen rest = size ->
      skipn (Z.to_nat size) (skipn (Z.to_nat nn) buf) = rest /\
      forall data e', p_offset q + zlen data <= U64MAX -> parse q data e' = parse p2 data e'.
Proof.
  intros H1 H2 H3 Hdrv0 Hp. destruct (driven_inv _ _ _ _ _ _ _ H1 H2 H3 Hdrv0) as [Hi Heof].
  pose proof (fits_app _ _ _ (inv_fits _ _ _ Hi)) as Hfit0.
  pose proof Hi as (Hroom0 & Hok & Hch). pose proof (chain_head _ _ Hch) as [_ Hcc].
  apply Forall_app in Hok as [Hokb _].
  pose proof (parse_sound _ _ _ _ _ _ Hfit0 Hokb Hcc Hp) as (e' & bs & rs & -> & -> & Hst & Hlim & _).
  rewrite skipn_zlen_app in *.
  assert (Hs1 : p_state p1 = SFunctionBody cnt size).
  { pinv Hst; subst; try (destruct (id =? 1); discriminate). reflexivity. }
  pose proof (pstep_frame _ _ _ _ _ Hst) as (Fm & Fo & Fc). specialize (Fo (fun x => x)).
  unfold skip_section. rewrite Hs1. eexists. split; [reflexivity|].
  intros tr p2 rest Hreads Htr Hsz.
  rewrite !zlen_app in Hroom0. pose proof (zlen_nonneg bs). pose proof (zlen_nonneg rs). pose proof (zlen_nonneg (List.concat cs)).
  destruct (reads_bodies_state _ _ _ _ _ Hreads cnt size Hs1) as (d & -> & _ & ->).
  - split; [rewrite Fo; unfold max_off in *; rewrite Fm; lia|]. intros _. lia.
  - lia.
  - apply Forall_app in Hokb. apply Hokb.
  - apply Fc. exact Hcc.
  - rewrite zlen_app in Hsz. assert (size = zlen d) as -> by lia. split; [apply skipn_zlen_app|].
    intros data e0 Hroom. rewrite Htr, !Z.sub_diag. unfold parse.
    cbn [set_state set_offset max_off p_max_offset p_offset p_feat].
    assert (Ep : forall ef r, parse_reader ef (set_state (set_offset p1 (p_offset p1 + zlen d)) SSectionStart) r
       = parse_reader ef (set_state (set_offset p1 (p_offset p1 + zlen d)) (SFunctionBody 0 0)) r).
    { intros ef r. unfold parse_reader. cbn [set_state set_offset p_state Z.eqb]. reflexivity. }
    unfold set_state, set_offset in *. cbn [max_off p_max_offset p_offset p_feat] in *.
    unfold max_off. cbn [p_max_offset].
    match goal with |- context [?a && ?b] => destruct (a && b) eqn:Eab end.
    { exfalso. apply andb_true_iff in Eab as [E1 E2]. destruct (p_max_offset p1); [discriminate|]. lia. }
    destruct (_ <? _); rewrite Ep; reflexivity.
Qed.

(** ** Pieces *)
Lemma chunks_module off cs tr out tr' out' : 0 <= off -> off + zlen (List.concat cs) + 99 <= U64MAX ->
  bytes_ok (List.concat cs) -> ~ is_component (List.concat cs) ->
  run (new_parser off) [] [] cs false tr out ->
  yields (parse_all_of (new_parser off) (List.concat cs)) tr' out' -> tr = tr' /\ out = out'.
Proof.
  intros H1 H2 H3 H4 Hr Hy.
  eapply run_module; [exact Hr|reflexivity| | | |reflexivity| |exact Hy].
  - cbn [app]. apply inv_new; auto. lia.
  - discriminate.
  - apply mm_new. exact H4.
  - cbn [app p_offset new_parser]. exact H2.
Qed.

Lemma chunks_any off cs tr out tr' out' : 0 <= off -> off + zlen (List.concat cs) <= U64MAX ->
  bytes_ok (List.concat cs) ->
  run (new_parser off) [] [] cs false tr out ->
  yields (parse_all_of (new_parser off) (List.concat cs)) tr' out' ->
  Forall (fun pl => ~ is_component_start pl) tr' -> tr = tr' /\ agree out' out.
Proof.
  intros H1 H2 H3 Hr Hy Hf. eapply run_agrees; eauto.
  - cbn [app]. apply inv_new; auto.
  - discriminate.
Qed.

Lemma chunks_counts off cs tr : 0 <= off -> off + zlen (List.concat cs) + 99 <= U64MAX ->
  bytes_ok (List.concat cs) -> ~ is_component (List.concat cs) ->
  run (new_parser off) [] [] cs false tr None -> items_of 3 tr = bodies_of tr /\ data_counts_ok tr.
Proof.
  intros H1 H2 H3 H4 Hr.
  destruct (yields_total off (List.concat cs) H1 ltac:(lia) H3) as (tr' & out' & Hy & _).
  destruct (chunks_module _ _ _ _ _ _ H1 H2 H3 H4 Hr Hy) as [-> <-].
  apply accept_iff in Hy; auto; [|lia].
  destruct Hy as (secs & bytes & pls & _ & _ & _ & Hf & Hd & ->).
  cbn [items_of bodies_of]. rewrite items_app, bodies_app. cbn [items_of bodies_of].
  split; [lia|]. intros n rg Hin. cbn [items_of]. rewrite items_app. cbn [items_of].
  destruct Hin as [E|Hin]; [discriminate|]. apply in_app_or in Hin as [Hin|[E|[]]]; [|discriminate].
  rewrite (Hd _ _ Hin). lia.
Qed.

(** Any piecewise feeding can be completed. *)
Lemma run_all cur st buf tr out : yields (mkAll cur st buf false) tr out -> inv cur st buf -> run cur st buf [] true tr out.
Proof.
  intros H. remember (mkAll cur st buf false) as s eqn:Es. revert cur st buf Es.
  induction H as [s e s' E|s pl s' E Ed|s pl s' tr out E Ed Hy IH]; intros cur st buf -> Hi;
    unfold all_next in E; cbn [a_done a_cur a_data a_stack] in E;
    destruct (parse cur buf true) as [[[h|n pl1]|er] cur'] eqn:Ep; try discriminate.
  - destruct (after_payload cur' st pl1) as [[c s1] d]. discriminate E.
  - injection E as <- _. eapply run_err; eauto.
  - destruct (after_payload cur' st pl1) as [[c s1] d] eqn:Ea. injection E as <- <-. cbn in Ed. subst d.
    eapply run_last; eauto.
  - destruct (after_payload cur' st pl1) as [[c s1] d] eqn:Ea. injection E as <- <-. cbn in Ed. subst d.
    eapply run_item; eauto. apply IH; [reflexivity|]. eapply inv_step; eauto.
Qed.

Lemma run_exists off cs : 0 <= off -> off + zlen (List.concat cs) <= U64MAX -> bytes_ok (List.concat cs) ->
  exists tr out, run (new_parser off) [] [] cs false tr out.
Proof.
  intros H1 H2 H3. destruct (yields_total off _ H1 H2 H3) as (tr & out & Hy & _).
  exists tr, out. pose proof (inv_new _ _ H1 H2 H3) as Hi. unfold parse_all_of in Hy.
  assert (Hg : forall cs buf, yields (mkAll (new_parser off) [] (buf ++ List.concat cs) false) tr out ->
    inv (new_parser off) [] (buf ++ List.concat cs) -> run (new_parser off) [] buf cs false tr out).
  { clear. induction cs as [|c cs IH]; intros buf Hy Hi.
    - cbn [List.concat] in *. rewrite app_nil_r in *. apply run_eof. apply run_all; auto.
    - cbn [List.concat] in *. rewrite app_assoc in *. apply run_feed. auto. }
  apply (Hg cs []); auto.
Qed.

(** A start section that arrives in two pieces: accepted whole, rejected piecewise. *)
Definition split_start : list (list Z) := [[0; 97; 115; 109; 13; 0; 1; 0; 9; 3]; [0; 0; 0]].

Lemma chunks_refuted : exists cs tr out tr' ,
  bytes_ok (List.concat cs) /\
  run (new_parser 0) [] [] cs false tr out /\
  yields (parse_all_of (new_parser 0) (List.concat cs)) tr' None /\ out <> None.
Proof.
  exists split_start. do 3 eexists. split; [repeat constructor; vm_compute; discriminate|]. split; [|split].
  - eapply run_feed. eapply run_item; [vm_compute; reflexivity|reflexivity|].
    eapply run_more; [vm_compute; reflexivity|]. eapply run_feed. eapply run_err. vm_compute. reflexivity.
  - eapply yields_item; [vm_compute; reflexivity|reflexivity|].
    eapply yields_item; [vm_compute; reflexivity|reflexivity|].
    eapply yields_last; [vm_compute; reflexivity|reflexivity].
  - discriminate.
Qed.

(** A component whose nested module claims more bytes than there are. *)
Definition cut_component : list Z :=
  [0; 97; 115; 109; 13; 0; 1; 0; 1; 100; 0; 97; 115; 109; 1; 0; 0; 0].

Lemma cut_component_trace : exists tr,
  yields (parse_all_of (new_parser 0) cut_component) (tr ++ [PEnd 110]) None.
Proof.
  assert (H : exists tr, yields (parse_all_of (new_parser 0) cut_component) tr None /\
            exists tr0, tr = tr0 ++ [PEnd 110]).
  { eexists. split.
    - do 4 (eapply yields_item; [vm_compute; reflexivity|reflexivity|]).
      eapply yields_last; [vm_compute; reflexivity|reflexivity].
    - match goal with |- exists tr0, ?l = _ => let r := eval cbv in (removelast l) in exists r end. reflexivity. }
  destruct H as (tr & Hy & tr0 & ->). exists tr0. exact Hy.
Qed.

Lemma component_end_refuted : exists data tr off,
  bytes_ok data /\ yields (parse_all_of (new_parser 0) data) (tr ++ [PEnd off]) None /\ off <> zlen data.
Proof.
  destruct cut_component_trace as [tr H]. exists cut_component, tr, 110.
  split; [repeat constructor; vm_compute; discriminate|]. split; [exact H|vm_compute; discriminate].
Qed.

(** Order alone decides, when the sections are well formed and the counts agree. *)
Lemma order_decides off secs bytes pls : 0 <= off -> off + 8 + zlen bytes <= U64MAX -> bytes_ok bytes ->
  shows_all (off + 8) secs bytes pls -> items_of 3 pls = bodies_of pls -> data_counts_ok pls ->
  ((exists tr, yields (parse_all_of (new_parser off) ([0; 97; 115; 109; 1; 0; 0; 0] ++ bytes)) tr None)
   <-> in_order (map fst secs)).
Proof.
  intros H1 H2 H3 Hs Hf Hd. change [0; 97; 115; 109; 1; 0; 0; 0] with module_header.
  assert (Hl : off + zlen (module_header ++ bytes) <= U64MAX).
  { rewrite zlen_app. change (zlen module_header) with 8. lia. }
  assert (Hb : bytes_ok (module_header ++ bytes)).
  { apply Forall_app. split; [|exact H3]. repeat constructor; vm_compute; discriminate. }
  assert (Hc : ~ is_component (module_header ++ bytes)) by (intros [t Et]; discriminate Et).
  split.
  - intros [tr Hy]. apply accept_iff in Hy; auto.
    destruct Hy as (secs' & bytes' & pls' & E & Hs' & Ho & _).
    change [0; 97; 115; 109; 1; 0; 0; 0] with module_header in E. apply app_inv_head in E as <-.
    destruct (shows_all_fun _ _ _ _ Hs _ _ Hs') as [-> ->]. exact Ho.
  - intros Ho. eexists. apply accept_iff; auto. exists secs, bytes, pls. repeat split; auto.
Qed.

Lemma component_tiles off data tr out : 0 <= off -> off + zlen data <= U64MAX -> bytes_ok data ->
  yields (parse_all_of (new_parser off) data) tr out ->
  exists d rest, data = d ++ rest /\ tiles_cut off d tr /\ (out = None -> rest = []).
Proof.
  intros H1 H2 H3 Hy. eapply (yields_tiles (new_parser off) [] data); eauto.
  - apply inv_new; auto.
  - cbn. auto.
Qed.
