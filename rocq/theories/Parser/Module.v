(** Parsing of core modules: the order of sections, the agreement of counts, and
    the correspondence with what wasm-encoder writes. *)
From Verif.Base Require Import Prelude Utf8.
From Verif.Reader Require Import Model Spec Mono.
From Verif.Leb Require Import Spec Model Proofs ReaderProofs.
From Verif.Encoder Require Import Model.
From Verif.Parser Require Import Model Proofs Spec Stream Shape Chunks Complete Tiling.

Inductive mpath : parser -> list Z -> list payload -> parser -> Prop :=
| mp_nil p : mpath p [] [] p
| mp_cons p pl bs p1 data tr p2 :
    pstep true p pl bs p1 -> ~ is_end pl -> p_offset p + zlen bs <= max_off p ->
    mpath p1 data tr p2 -> mpath p (bs ++ data) (pl :: tr) p2.

Definition fents (c : counts) : Z := match function_entries c with Some n => n | None => 0 end.
Definition cents (c : counts) : Z := match code_entries c with Some n => n | None => 0 end.
Definition dents (c : counts) : Z := match data_entries c with Some n => n | None => 0 end.
Definition bodies_left (s : pstate) : Z := match s with SFunctionBody n _ => n | _ => 0 end.

(** The invariant of a parser inside a module. *)
Record minv (p : parser) : Prop := mkMinv
  { mi_enc : p_enc p = EModule;
    mi_state : p_state p <> SHeader;
    mi_pos : snd (p_order p) <= p_offset p;
    mi_low : OInitial <= fst (p_order p);
    mi_f : function_entries (p_counts p) <> None -> OFunction <= fst (p_order p);
    mi_c : code_entries (p_counts p) <> None -> OCode <= fst (p_order p);
    mi_d : data_entries (p_counts p) <> None -> OData <= fst (p_order p);
    mi_dc : data_count (p_counts p) <> None -> ODataCount <= fst (p_order p) }.

Ltac pinv H :=
  inversion H as
    [Es|Es|q lenb s nb name data Ha Hh Hu Hl Hv|q id o lenb s cb count items Ha He Ho H8 H10 H12 Hh Hord Hu Hd
    |q lenb s fb func Ha He Hh Hord Hu|q lenb s cb count Ha He Hh Hord Hu
    |q lenb len s cb count Ha He Hh Hord Hu Hle Hf|n l lenb body Es Hn Hu Hle
    |q id lenb s contents Ha Hid Hk Hh|q id lenb s cb count items Ha He Hid Hh Hu
    |q id lenb len s Ha He Hid Hh Hmx|q lenb s fb func nb args abs rb results Ha He Hc Hh Hf Hn Hn2 Hab Hr Hr2
    |q Ha Ee Hf Hd].

Lemma section_order_range id o : section_order id = Some o -> OInitial < o <= OData.
Proof.
  unfold section_order. intros H.
  repeat match type of H with match ?x with _ => _ end = _ => destruct x; try discriminate H end;
    injection H as <-; vm_compute; split; congruence.
Qed.

Lemma order_strict p o lenb s len id : minv p -> header_at p id lenb len s -> order_ok p o s -> fst (p_order p) < o.
Proof.
  intros Hm (_ & Hu & -> & _) Hok. destruct (Z.lt_ge_cases (fst (p_order p)) o); [assumption|].
  exfalso. apply Hok. split; [apply Hm|]. split; [lia|].
  pose proof (mi_pos _ Hm). pose proof (zlen_nonneg lenb). lia.
Qed.

Lemma header_pos p id lenb len s : header_at p id lenb len s -> s = p_offset p + 1 + zlen lenb /\ 0 <= len /\ p_offset p <= s.
Proof. intros (_ & Hu & -> & _). apply uN_range in Hu. pose proof (zlen_nonneg lenb). lia. Qed.

Lemma minv_step e p pl bs p' : minv p -> pstep e p pl bs p' -> minv p' /\ ~ nested pl.
Proof.
  intros Hm H. pose proof (mi_pos _ Hm) as Mp. pose proof (mi_low _ Hm) as Ml.
  pose proof (mi_f _ Hm) as Mf. pose proof (mi_c _ Hm) as Mc. pose proof (mi_d _ Hm) as Md. pose proof (mi_dc _ Hm) as Mdc.
  pinv H; subst; clear H;
    try (exfalso; apply (mi_state _ Hm); assumption);
    try (match goal with He : p_enc p = EComponent |- _ => rewrite (mi_enc _ Hm) in He; discriminate end);
    (split; [|exact (fun x => x)]);
    try match goal with Ha : at_sections p _ |- _ => apply at_sections_facts in Ha as (Qc & Qo & Qe & Qf & Qm & Qft & Qs) end;
    try match goal with Hord : order_ok p ?o ?s, Hh : header_at p _ _ _ ?s |- _ =>
      pose proof (order_strict _ _ _ _ _ _ Hm Hh Hord) as Hlt end;
    try match goal with Ho : section_order _ = Some _ |- _ => pose proof (section_order_range _ _ Ho) as Hor end;
    try match goal with Hh : header_at p _ _ _ _ |- _ => pose proof (header_pos _ _ _ _ _ Hh) as (Hs & Hlen & Hps) end;
    constructor; unfold moved;
    cbn [set_offset set_state set_enc set_order set_counts p_max_offset p_offset p_counts p_order p_enc p_feat p_state fst snd];
    rewrite ?Qc, ?Qo, ?Qe, ?Qf, ?Qs; try apply Hm; try discriminate;
    try (rewrite ?zlen_cons, ?zlen_app in *;
         repeat match goal with |- context [zlen ?l] => lazymatch goal with _ : 0 <= zlen l |- _ => fail | _ => pose proof (zlen_nonneg l) end end; lia);
    unfold bump;
    repeat match goal with |- context [?a =? ?b] => destruct (Z.eqb_spec a b) end; subst;
    cbn [function_entries code_entries data_entries data_count]; intros Hx;
    try (match goal with Ho : section_order _ = Some _ |- _ => vm_compute in Ho; try (injection Ho as <-) end);
    try (unfold OFunction, OCode, OData, ODataCount, OStart in *; lia);
    try (specialize (Mf Hx)); try (specialize (Mc Hx)); try (specialize (Md Hx)); try (specialize (Mdc Hx)); try lia.
Qed.

Lemma module_path cur data tr :
  yields (mkAll cur [] data false) tr None -> inv cur [] data -> minv cur -> p_max_offset cur = None ->
  exists tr0 p1 q, tr = tr0 ++ [PEnd (p_offset p1)] /\ mpath cur data tr0 p1 /\ at_sections p1 q /\
    funcs_agree (p_counts p1) /\ data_agree (p_counts p1) /\ p_offset p1 = p_offset cur + zlen data /\ minv p1.
Proof.
  intros H. remember (mkAll cur [] data false) as s eqn:Es. remember None as out eqn:Eout.
  revert cur data Es. induction H as [s e s' E|s pl s' E Ed|s pl s' tr out E Ed Hy IH]; intros cur data -> Hi Hm Hmx.
  - discriminate.
  - unfold all_next in E. cbn [a_done a_cur a_data a_stack] in E.
    destruct (parse cur data true) as [[[h|n pl1]|er] cur'] eqn:Ep; try discriminate.
    destruct (after_payload cur' [] pl1) as [[c s1] d] eqn:Ea. injection E as <- <-. cbn in Ed. subst d.
    apply parse_sound in Ep as (e' & bs & rest & -> & -> & Hst & _ & Hend);
      [|eapply inv_fits; eauto|apply Hi|apply (chain_head _ _ (proj2 (proj2 Hi)))].
    destruct pl1; try discriminate Ea.
    destruct (pstep_end _ _ _ _ _ Hst I) as [-> ->].
    assert (rest = []) as ->.
    { destruct (Hend eq_refl eq_refl) as [[-> _]|Eo]; [reflexivity|].
      destruct Hi as (Hle & _ & _). unfold max_off in Eo. rewrite Hmx in Eo. cbn [app] in Hle. apply zlen_zero. lia. }
    inversion Hst; subst; try (destruct (id =? 1); discriminate).
    exists [], cur, q. change (zlen (@nil Z ++ [])) with 0. rewrite Z.add_0_r.
    split; [reflexivity|]. split; [constructor|]. auto.
  - unfold all_next in E. cbn [a_done a_cur a_data a_stack] in E.
    destruct (parse cur data true) as [[[h|n pl1]|er] cur'] eqn:Ep; try discriminate.
    destruct (after_payload cur' [] pl1) as [[c s1] d] eqn:Ea. injection E as <- <-. cbn in Ed. subst d.
    pose proof (inv_step _ _ _ _ _ _ _ _ Hi Ep Ea) as [Hi' _].
    apply parse_sound in Ep as (e' & bs & rest & -> & -> & Hst & Hlim & Hend);
      [|eapply inv_fits; eauto|apply Hi|apply (chain_head _ _ (proj2 (proj2 Hi)))].
    rewrite skipn_zlen_app in *.
    pose proof (minv_step _ _ _ _ _ Hm Hst) as [Hm' Hnn].
    pose proof (pstep_frame _ _ _ _ _ Hst) as (Fm & Fo & _).
    assert (Hne : ~ is_end pl1) by (destruct pl1; cbn in *; try tauto; discriminate).
    assert (c = cur' /\ s1 = []) as [-> ->] by (destruct pl1; cbn in *; try tauto; split; congruence).
    destruct (IH Eout _ _ eq_refl Hi' Hm' (eq_trans Fm Hmx)) as (tr0 & p1 & q & -> & Hp & Ha & H1 & H2 & Ho & Hm1).
    exists (pl1 :: tr0), p1, q. split; [reflexivity|]. split; [|split; [exact Ha|split; [exact H1|split; [exact H2|split; [|exact Hm1]]]]].
    + econstructor; eauto. eapply pstep_flag; eauto.
    + rewrite Ho, (Fo Hnn), zlen_app. lia.
Qed.

(** ** Order *)
Fixpoint ordered (lo : Z) (ids : list Z) : Prop :=
  match ids with
  | [] => True
  | id :: ids => match section_order id with Some o => lo < o /\ ordered o ids | None => ordered lo ids end
  end.

Lemma section_order_known id : section_order id = None <-> known_id id = false.
Proof.
  unfold section_order, known_id. split.
  - destruct ((1 <=? id) && (id <=? 13)) eqn:E; [|reflexivity].
    assert (Hin : In id [1;2;3;4;5;6;7;8;9;10;11;12;13]) by (cbn; lia). cbn in Hin.
    repeat (destruct Hin as [<-|Hin]; [discriminate|]). contradiction.
  - intros E. destruct id as [|p|p]; try reflexivity.
    do 4 (try destruct p as [p|p|]); try reflexivity; cbn in E; discriminate.
Qed.

Lemma spec_order_skip id o : section_order id = Some o ->
  skipn (Z.to_nat (o - 1)) spec_order = id :: skipn (Z.to_nat o) spec_order.
Proof.
  unfold section_order. intros H.
  repeat match type of H with match ?x with _ => _ end = _ => destruct x; try discriminate H end;
    injection H as <-; reflexivity.
Qed.

Lemma subseq_skipn {A} (l s : list A) n : subseq l (skipn n s) -> subseq l s.
Proof. revert s. induction n as [|n IH]; intros s; cbn; [auto|]. destruct s; [auto|]. intros H. constructor. auto. Qed.

Lemma subseq_skipn_le {A} (l s : list A) n m : (n <= m)%nat -> subseq l (skipn m s) -> subseq l (skipn n s).
Proof.
  intros Hle H. apply subseq_skipn with (n := (m - n)%nat).
  replace (skipn (m - n) (skipn n s)) with (skipn m s); [exact H|].
  clear H l. revert s m Hle. induction n as [|n IH]; intros s m Hle; cbn.
  - rewrite Nat.sub_0_r. reflexivity.
  - destruct s; [rewrite !skipn_nil; reflexivity|]. destruct m; [lia|]. cbn. apply IH. lia.
Qed.

Lemma subseq_nil_l {A} (l : list A) : subseq [] l.
Proof. induction l; constructor; assumption. Qed.

Lemma ordered_subseq ids : forall lo, 0 <= lo -> ordered lo ids ->
  subseq (filter known_id ids) (skipn (Z.to_nat lo) spec_order).
Proof.
  induction ids as [|id ids IH]; intros lo Hlo H; cbn [filter ordered] in *; [apply subseq_nil_l|].
  destruct (section_order id) as [o|] eqn:E.
  - assert (known_id id = true) as ->.
    { destruct (known_id id) eqn:K; [reflexivity|]. apply section_order_known in K. congruence. }
    destruct H as [Hlt H]. specialize (IH o ltac:(lia) H).
    apply subseq_skipn_le with (m := Z.to_nat (o - 1)); [lia|].
    rewrite (spec_order_skip _ _ E). apply sub_take. exact IH.
  - apply section_order_known in E. rewrite E. auto.
Qed.

Lemma ordered_weaken lo lo' ids : lo <= lo' -> ordered lo' ids -> ordered lo ids.
Proof.
  revert lo lo'. induction ids as [|id ids IH]; intros lo lo' Hl; cbn; [auto|].
  destruct (section_order id); [intros [H1 H2]; split; [lia|exact H2]|eauto].
Qed.

Lemma spec_order_cons n x m : skipn n spec_order = x :: m -> section_order x = Some (Z.of_nat n + 1) /\ m = skipn (S n) spec_order.
Proof.
  do 13 (destruct n as [|n]; [cbn; intros [= <- <-]; split; reflexivity|]). cbn. destruct n; discriminate.
Qed.

Lemma subseq_ordered l m : subseq l m -> forall n, m = skipn n spec_order ->
  forall ids, filter known_id ids = l -> ordered (Z.of_nat n) ids.
Proof.
  induction 1 as [|x l m H IH|x l m H IH]; intros n E ids Ef.
  - clear E. revert Ef. induction ids as [|id ids IH]; cbn; [auto|].
    destruct (known_id id) eqn:K; [discriminate|]. apply section_order_known in K. rewrite K. exact IH.
  - symmetry in E. apply spec_order_cons in E as [_ E].
    apply ordered_weaken with (lo' := Z.of_nat (S n)); [lia|]. eapply IH; eauto.
  - symmetry in E. apply spec_order_cons in E as [Ex E].
    revert Ef. induction ids as [|id ids IHi]; cbn; [discriminate|].
    destruct (known_id id) eqn:K.
    + intros [= -> Ef]. rewrite Ex. split; [lia|]. replace (Z.of_nat n + 1) with (Z.of_nat (S n)) by lia. eauto.
    + apply section_order_known in K. rewrite K. exact IHi.
Qed.

Lemma in_order_iff ids : in_order ids <-> ordered 0 ids.
Proof.
  split.
  - intros H. exact (subseq_ordered _ _ H 0%nat eq_refl ids eq_refl).
  - intros H. exact (ordered_subseq ids 0 ltac:(lia) H).
Qed.

Lemma path_ordered p data tr p' : mpath p data tr p' -> minv p ->
  ordered (fst (p_order p)) (map fst (sections_of tr)).
Proof.
  induction 1 as [p|p pl bs p1 dt tr p2 Hst Hne Hlim Hp IH]; intros Hm; [exact I|].
  pose proof (minv_step _ _ _ _ _ Hm Hst) as [Hm1 Hnn]. specialize (IH Hm1). revert IH.
  pinv Hst; subst; clear Hst;
    try (exfalso; apply (mi_state _ Hm); assumption);
    try (match goal with He : p_enc p = EComponent |- _ => rewrite (mi_enc _ Hm) in He; discriminate end);
    try match goal with Ha : at_sections p _ |- _ => apply at_sections_facts in Ha as (Qc & Qo & Qe & Qf & Qm & Qft & Qs) end;
    try match goal with Hord : order_ok p ?o ?s, Hh : header_at p _ _ _ ?s |- _ =>
      pose proof (order_strict _ _ _ _ _ _ Hm Hh Hord) as Hlt end;
    unfold moved;
    cbn [set_offset set_state set_enc set_order set_counts p_order fst snd sections_of map ordered section_order];
    rewrite ?Qo; auto.
  - rewrite Ho. auto.
  - rewrite (mi_enc _ Hm) in Hk. rewrite Hk. auto.
Qed.

(** ** Counts *)
Lemma path_counts p data tr p' : mpath p data tr p' -> minv p ->
  fents (p_counts p') = fents (p_counts p) + items_of 3 tr /\
  cents (p_counts p') = cents (p_counts p) + announced tr /\
  dents (p_counts p') = dents (p_counts p) + items_of 11 tr /\
  bodies_left (p_state p) + announced tr = bodies_of tr + bodies_left (p_state p') /\
  (forall n, data_count (p_counts p) = Some n -> data_count (p_counts p') = Some n) /\
  (forall n rg, In (PDataCount n rg) tr -> data_count (p_counts p') = Some n).
Proof.
  induction 1 as [p|p pl bs p1 dt tr p2 Hst Hne Hlim Hp IH]; intros Hm.
  { cbn. repeat split; auto; try lia. }
  pose proof (minv_step _ _ _ _ _ Hm Hst) as [Hm1 Hnn]. specialize (IH Hm1). revert IH.
  pose proof (mi_f _ Hm) as Mf. pose proof (mi_c _ Hm) as Mc. pose proof (mi_d _ Hm) as Md. pose proof (mi_dc _ Hm) as Mdc.
  pinv Hst; subst; clear Hst;
    try (exfalso; apply (mi_state _ Hm); assumption);
    try (exfalso; apply Hne; exact I);
    try (match goal with He : p_enc p = EComponent |- _ => rewrite (mi_enc _ Hm) in He; discriminate end);
    try match goal with Hord : order_ok p ?o ?s, Hh : header_at p _ _ _ ?s |- _ =>
      pose proof (order_strict _ _ _ _ _ _ Hm Hh Hord) as Hlt end;
    try match goal with Ha : at_sections p _ |- _ =>
      assert (Hb0 : bodies_left (p_state p) = 0) by (destruct Ha as [[-> _]|[-> _]]; reflexivity);
      apply at_sections_facts in Ha as (Qc & Qo & Qe & Qf & Qm & Qft & Qs) end;
    unfold moved;
    cbn [set_offset set_state set_enc set_order set_counts p_order p_counts p_state fst snd items_of announced bodies_of In];
    intros (I1 & I2 & I3 & I4 & I5 & I6); rewrite ?Qc, ?Qs, ?Hb0 in *; cbn [bodies_left] in *.
  - repeat split; auto. intros kk rg [E|Hin]; [discriminate|eauto].
  - assert (Hbump : forall k, k <> id -> (k =? id) = false) by (intros k; destruct (Z.eqb_spec k id); congruence).
    unfold bump in *.
    destruct (Z.eqb_spec id 3).
    { subst id. injection Ho as <-.
      assert (function_entries (p_counts p) = None).
      { destruct (function_entries (p_counts p)); [|reflexivity]. specialize (Mf ltac:(discriminate)). lia. }
      assert (Hf0 : fents (p_counts p) = 0) by (unfold fents; rewrite H; reflexivity).
      cbn [Z.eqb Pos.eqb]. unfold fents, cents, dents in *.
      cbn [function_entries code_entries data_entries data_count] in *.
      repeat split; auto; try lia. intros kk rg [E|Hin]; [discriminate|eauto]. }
    destruct (Z.eqb_spec id 11).
    { subst id. injection Ho as <-.
      assert (data_entries (p_counts p) = None).
      { destruct (data_entries (p_counts p)); [|reflexivity]. specialize (Md ltac:(discriminate)). lia. }
      assert (Hf0 : dents (p_counts p) = 0) by (unfold dents; rewrite H; reflexivity).
      cbn [Z.eqb Pos.eqb]. unfold fents, cents, dents in *.
      cbn [function_entries code_entries data_entries data_count] in *.
      repeat split; auto; try lia. intros kk rg [E|Hin]; [discriminate|eauto]. }
    destruct (Z.eqb_spec id 12); [congruence|]. destruct (Z.eqb_spec id 10); [congruence|].
    repeat split; auto; try lia. intros k rg [E|Hin]; [discriminate|eauto].
  - repeat split; auto. intros kk rg [E|Hin]; [discriminate|eauto].
  - assert (data_count (p_counts p) = None).
    { destruct (data_count (p_counts p)); [|reflexivity]. specialize (Mdc ltac:(discriminate)). lia. }
    unfold bump, fents, cents, dents in *. cbn [Z.eqb Pos.eqb function_entries code_entries data_entries data_count] in *.
    repeat split; auto; try lia.
    + intros n Hn. congruence.
    + intros kk rg [E|Hin]; [injection E as <- _; auto|eauto].
  - assert (code_entries (p_counts p) = None).
    { destruct (code_entries (p_counts p)); [|reflexivity]. specialize (Mc ltac:(discriminate)). lia. }
    assert (Hf0 : cents (p_counts p) = 0) by (unfold cents; rewrite H; reflexivity).
    unfold bump, fents, cents, dents in *. cbn [Z.eqb Pos.eqb function_entries code_entries data_entries data_count] in *.
    repeat split; auto; try lia. intros kk rg [E|Hin]; [discriminate|eauto].
  - rewrite Es. cbn [bodies_left]. repeat split; auto; try lia. intros k rg [E|Hin]; [discriminate|eauto].
  - repeat split; auto. intros kk rg [E|Hin]; [discriminate|eauto].
Qed.

(** ** What the encoder wrote is what the parser reports *)
Lemma app_len_inj {A} (a b c d : list A) : zlen a = zlen c -> a ++ b = c ++ d -> a = c /\ b = d.
Proof.
  revert c. induction a as [|x a IH]; intros [|y c] Hl E; try (rewrite ?zlen_cons, ?zlen_nil in Hl;
    pose proof (zlen_nonneg a); pose proof (zlen_nonneg c); lia).
  - auto.
  - exfalso. rewrite zlen_cons, zlen_nil in Hl. pose proof (zlen_nonneg c). lia.
  - exfalso. rewrite zlen_cons, zlen_nil in Hl. pose proof (zlen_nonneg a). lia.
  - cbn in E. injection E as -> E. rewrite !zlen_cons in Hl. destruct (IH c ltac:(lia) E) as [-> ->]. auto.
Qed.

Lemma mpath_app p a t1 p1 b t2 p2 : mpath p a t1 p1 -> mpath p1 b t2 p2 -> mpath p (a ++ b) (t1 ++ t2) p2.
Proof.
  induction 1; intros H'; cbn [app]; [assumption|]. rewrite <- app_assoc. econstructor; eauto.
Qed.

Lemma entries_split p data tr p' : mpath p data tr p' -> forall n l q,
  p_state p = SFunctionBody n l -> at_sections p' q -> minv p ->
  exists d1 d2 tr1 tr2 pm, data = d1 ++ d2 /\ zlen d1 = l /\ tr = tr1 ++ tr2 /\ sections_of tr = sections_of tr2 /\
    mpath pm d2 tr2 p' /\ p_state pm = SFunctionBody 0 0 /\ p_offset pm = p_offset p + l /\ minv pm.
Proof.
  induction 1 as [p|p pl bs p1 dt tr p2 Hst Hne Hlim Hp IH]; intros n0 l0 q0 Es0 Ha0 Hm.
  { destruct Ha0 as [[E _]|[E _]]; rewrite Es0 in E; [discriminate|]. injection E as -> ->.
    exists [], [], [], [], p. rewrite Z.add_0_r. repeat split; auto; try constructor; try apply Hm. }
  pose proof (minv_step _ _ _ _ _ Hm Hst) as [Hm1 Hnn].
  assert (Hcase : (n0 = 0 /\ l0 = 0) \/ exists lenb body,
    pl = PCodeEntry (p_offset p + zlen lenb, p_offset p + zlen lenb + zlen body) body /\ bs = lenb ++ body /\
    p1 = moved (set_state p (SFunctionBody (n0 - 1) (l0 - zlen (lenb ++ body)))) (lenb ++ body)).
  { pinv Hst; subst;
      try (match goal with Ha : at_sections p _ |- _ => destruct Ha as [[E _]|[E _]]; rewrite Es0 in E; [discriminate|];
             injection E as -> ->; left; auto end);
      try congruence.
    right. rewrite Es0 in Es. injection Es as -> ->. eauto. }
  destruct Hcase as [[-> ->]|(lenb & body & -> & -> & ->)].
  - exists [], (bs ++ dt), [], (pl :: tr), p. rewrite Z.add_0_r. repeat split; auto; try apply Hm. econstructor; eauto.
  - destruct (IH (n0 - 1) (l0 - zlen (lenb ++ body)) q0 eq_refl Ha0 Hm1) as (d1 & d2 & tr1 & tr2 & pm & -> & Hl & -> & Hso & Hpm & Hs & Ho & Hmm).
    exists ((lenb ++ body) ++ d1), d2, (PCodeEntry (p_offset p + zlen lenb, p_offset p + zlen lenb + zlen body) body :: tr1), tr2, pm.
    repeat split; auto; try apply Hmm.
    + rewrite app_assoc. reflexivity.
    + rewrite !zlen_app in *. lia.
    + rewrite Ho. unfold moved. cbn [set_offset set_state p_offset]. lia.
Qed.

Lemma slice_mid a d b s : s = zlen a -> slice (a ++ d ++ b) s (s + zlen d) = d.
Proof.
  intros ->. unfold slice. rewrite skipn_zlen_app. replace (zlen a + zlen d - zlen a) with (zlen d) by lia.
  unfold zlen. rewrite Nat2Z.id, firstn_app, firstn_all, Nat.sub_diag. cbn. apply app_nil_r.
Qed.

Definition reports (full : list Z) (sec : Z * list Z) (h : Z * (Z * Z)) : Prop :=
  fst h = fst sec /\ slice full (fst (snd h)) (snd (snd h)) = snd sec.

Lemma section_align id lenb d rest id' lenb' len bs :
  uN 32 lenb (zlen d) -> uN 32 lenb' len -> id' :: lenb' ++ bs = id :: lenb ++ d ++ rest ->
  id' = id /\ lenb' = lenb /\ len = zlen d /\ bs = d ++ rest.
Proof.
  intros Hu Hu' E. injection E as -> E.
  assert (lenb' = lenb) as -> by (eapply uN_prefix_free; eauto).
  split; [reflexivity|]. split; [reflexivity|]. split; [eapply uN_functional; eauto|].
  apply app_inv_head in E. exact E.
Qed.

Lemma align secs : forall bytes p tr p' qa q' pre,
  module_sections secs = Some bytes -> mpath p bytes tr p' -> at_sections p qa -> at_sections p' q' -> minv p ->
  zlen pre = p_offset p ->
  Forall2 (reports (pre ++ bytes)) secs (sections_of tr).
Proof.
  induction secs as [|[ix dx] secs IH]; intros bytes p tr p' qa q' pre Hb Hp HaP HaP' Hm Hpre.
  - injection Hb as <-. inversion Hp as [|? ? bs ? data ? ? Hst Hne]; subst; [constructor|].
    apply pstep_nonempty in Hst; [|assumption]. destruct bs; [congruence|discriminate].
  - cbn [module_sections] in Hb. unfold module_section, encode_bytes in Hb.
    destruct (encode_usize (zlen dx)) as [lx|] eqn:El; [|discriminate].
    destruct (module_sections secs) as [rest|] eqn:Er; [|discriminate].
    injection Hb as <-. cbn [app] in Hp |- *. rewrite <- app_assoc in Hp |- *.
    assert (HuP : uN 32 lx (zlen dx)).
    { unfold encode_usize in El. destruct (Z.leb_spec (zlen dx) (2 ^ 32 - 1)); [|discriminate].
      apply (enc_u_correct 5); [exact El| |lia]. pose proof (zlen_nonneg dx). lia. }
    assert (Hgo : forall p1 tr1, mpath p1 rest tr1 p' -> (exists q1, at_sections p1 q1) -> minv p1 ->
        p_offset p1 = p_offset p + zlen (ix :: lx ++ dx) ->
        Forall2 (reports (pre ++ ix :: lx ++ dx ++ rest)) secs (sections_of tr1)).
    { intros p1 tr1 Hp1 [q1 Ha1] Hm1 Ho1.
      replace (pre ++ ix :: lx ++ dx ++ rest) with ((pre ++ ix :: lx ++ dx) ++ rest)
        by (rewrite <- app_assoc; cbn [app]; rewrite <- app_assoc; reflexivity).
      eapply IH; eauto. rewrite zlen_app, Ho1, Hpre. reflexivity. }
    assert (Hsl : forall s, s = p_offset p + 1 + zlen lx -> slice (pre ++ ix :: lx ++ dx ++ rest) s (s + zlen dx) = dx).
    { intros s Hs. replace (pre ++ ix :: lx ++ dx ++ rest) with ((pre ++ ix :: lx) ++ dx ++ rest)
        by (rewrite <- app_assoc; reflexivity).
      apply slice_mid. rewrite zlen_app, zlen_cons. lia. }
    inversion Hp as [|? pl bs p1 dt tr1 ? Hst Hne Hlim Hp1 E1 E2 E3 E4]; subst. rewrite E2.
    pose proof (minv_step _ _ _ _ _ Hm Hst) as [Hm1 Hnn].
    pose proof (pstep_frame _ _ _ _ _ Hst) as (_ & Fo & _). specialize (Fo Hnn).
    (* a section whose whole body is in this step *)
    assert (Hwhole : forall ix' lx' contents s, bs = ix' :: lx' ++ contents ->
      header_at p ix' lx' (zlen contents) s -> (exists q1, at_sections p1 q1) ->
      sections_of (pl :: tr1) = (ix', (s, s + zlen contents)) :: sections_of tr1 ->
      Forall2 (reports (pre ++ ix :: lx ++ dx ++ rest)) ((ix, dx) :: secs) (sections_of (pl :: tr1))).
    { intros ix' lx' contents s -> (_ & HuP' & Hs & _) Hq1 ->.
      cbn [app] in E2. rewrite <- app_assoc in E2.
      destruct (section_align _ _ _ _ _ _ _ _ HuP HuP' E2) as (-> & -> & Hlen & E5).
      apply app_len_inj in E5 as [-> ->]; [|exact Hlen].
      constructor; [|apply (Hgo p1); auto].
      split; [reflexivity|]. cbn [fst snd]. auto. }
    assert (Hnext : forall q0 p2, at_sections p q0 -> p_state p2 = p_state q0 -> exists q1, at_sections p2 q1).
    { intros q0 p2 Ha0 Hs2. exists p2. left. split; [|reflexivity]. apply at_sections_facts in Ha0 as (_ & _ & _ & _ & _ & _ & Hs). congruence. }
    pinv Hst; subst;
      try (exfalso; apply (mi_state _ Hm); assumption);
      try (exfalso; apply Hne; exact I);
      try (match goal with He : p_enc p = EComponent |- _ => rewrite (mi_enc _ Hm) in He; discriminate end);
      try (eapply Hwhole; [reflexivity|eassumption|eapply Hnext; [eassumption|reflexivity]|reflexivity]).
    + (* code *)
      cbn [app] in E2. rewrite <- app_assoc in E2. destruct Hh as (Hid & Hu' & Hs & H5 & H6).
      destruct (section_align _ _ _ _ _ _ _ _ HuP Hu' E2) as (<- & -> & -> & E5).
      destruct (entries_split _ _ _ _ Hp1 count (zlen dx - zlen cb) q' eq_refl HaP' Hm1)
        as (d1 & d2 & t1 & t2 & pm & -> & Hl1 & -> & Hso & Hpm & Hsm & Hom & Hmm).
      rewrite app_assoc in E5. apply app_len_inj in E5 as [<- <-]; [|rewrite zlen_app; lia].
      cbn [sections_of]. rewrite Hso. constructor.
      * split; [reflexivity|]. cbn [fst snd]. auto.
      * apply (Hgo pm); auto.
        -- eexists. right. split; [exact Hsm|reflexivity].
        -- rewrite Hom, Fo, !zlen_cons, !zlen_app. lia.
    + exfalso. destruct HaP as [[E _]|[E _]]; rewrite E in Es; [discriminate|congruence].
Qed.
