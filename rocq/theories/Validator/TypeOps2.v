(** Operators with rules of their own, continued: locals, [select], [br_table] and references. *)
From Verif.Base Require Import Prelude.
From Verif.Locals Require Import Model Proofs.
From Verif.Types Require Import RefModel CodecModel CanonModel.
From Verif.Instr Require Import ImmModel Ops.
From Verif.Validator Require Import State Checks Visit Undo Top Sig TypeSpec TypeBase TypeSem TypeLook TypeSig TypeSigs TypeInst TypeOps.

Section Ops.
Variable E : env.
Variable C : ctx.
Hypothesis HM : res_ok (cx_mod C).
Hypothesis HE : envok E C.
Notation ok_step := (ok_step C).

(** ** Locals *)
Lemma set_local_ok X s u seg below i t : 0 <= i -> nth_error (cx_locals C) (Z.to_nat i) = Some t -> inst C X s u seg below ->
  exists s', local_set_init i s = VOk tt s' /\ inst C (i :: X) s' u seg below /\ kept s s'.
Proof.
  intros Hi Hn In. pose proof In as [[V1 V2] L R S Lo W Ii]. unfold local_set_init.
  assert (Hl : (Z.to_nat i < List.length (cx_locals C))%nat) by (apply nth_error_Some; congruence).
  destruct (Ii i Hi Hl) as (b & B1 & B2).
  assert (Hs : exists is', set_init (vs_inits s) i = Some is') by (unfold set_init; rewrite B1; destruct b; cbn; eauto).
  destruct Hs as (is' & Hs). rewrite Hs. eexists. split; [reflexivity|]. split.
  - split; cbn [with_inits vs_control vs_shared vs_locals vs_inits vs_operands]; auto.
    + split; assumption.
    + apply (set_init_wf _ _ _ W Hs).
    + intros j Hj Hjl. destruct (Ii j Hj Hjl) as (c & C1 & C2). destruct (set_init_cases _ _ _ Hs) as [->|(H1 & H2 & ->)].
      * exists c. split; [exact C1|]. rewrite C2. cbn [List.In]. split; [auto|]. intros [<-|H]; [|exact H].
        unfold set_init in Hs. rewrite B1 in Hs. destruct b; [tauto|]. cbn [negb] in Hs. exfalso. apply (f_equal (fun o => match o with Some x => li_log x | None => [] end)) in Hs.
        cbn [li_log] in Hs. apply (f_equal (@List.length Z)) in Hs. rewrite app_length in Hs. cbn in Hs. lia.
      * unfold is_uninit in *. cbn [li_first li_bits]. destruct (Z.ltb_spec j (li_first (vs_inits s))).
        -- exists true. cbn. split; [reflexivity|]. split; [intros _|reflexivity]. right. apply C2. destruct c; [reflexivity|discriminate].
        -- rewrite set_bit_nth. destruct (Nat.eqb_spec (Z.to_nat i) (Z.to_nat j)) as [e|e].
           ++ assert (j = i) by lia. subst j. exists true.
              assert (Hb : (Z.to_nat i <? List.length (li_bits (vs_inits s)))%nat = true) by (apply Nat.ltb_lt, nth_error_Some; congruence).
              rewrite Hb. cbn. split; [reflexivity|]. split; auto.
           ++ exists c. split; [exact C1|]. rewrite C2. cbn [List.In]. split; [auto|]. intros [->|K]; [congruence|exact K].
  - split; cbn [with_inits vs_control vs_inits].
    + destruct V2 as (fr & rest & V2 & _). exists fr, fr, rest. auto using same_frame_refl.
    + intros is0 K. eapply ext_set; eassumption.
Qed.
Lemma typ_local_get X i a b : typ C X (Op_LocalGet i) a b <-> exists t, nth_error (cx_locals C) (Z.to_nat i) = Some t /\ In i X /\ a = [] /\ b = [DVal t].
Proof. split; [typ_of; rev_eqs; eauto 6|]. intros (t & H & K & -> & ->). exists []. constructor; assumption. Qed.
Lemma typ_local_set X i a b : typ C X (Op_LocalSet i) a b <-> exists t, nth_error (cx_locals C) (Z.to_nat i) = Some t /\ a = [DVal t] /\ b = [].
Proof. split; [typ_of; rev_eqs; eauto 6|]. intros (t & H & -> & ->). exists [i]. constructor; assumption. Qed.
Lemma typ_local_tee X i a b : typ C X (Op_LocalTee i) a b <-> exists t, nth_error (cx_locals C) (Z.to_nat i) = Some t /\ a = [DVal t] /\ b = [DVal t].
Proof. split; [typ_of; rev_eqs; eauto 6|]. intros (t & H & -> & ->). exists [i]. constructor; assumption. Qed.
Lemma local_ok X s u seg below i : 0 <= i -> inst C X s u seg below ->
  match nth_error (cx_locals C) (Z.to_nat i) with Some t => local E i s = VOk t s | None => match local E i s with VOk _ _ => False | _ => True end end.
Proof.
  intros Hi In. unfold local, vbind, vget. rewrite (in_locals _ _ _ _ _ _ In i Hi). destruct (nth_error _ _); [reflexivity|exact I].
Qed.
Lemma local_get_step X i s u seg below : 0 <= i -> inst C X s u seg below -> ok_step X (Op_LocalGet i) s u seg below (visit_op E (Op_LocalGet i) s).
Proof.
  intros Hi In. cbn [visit_op]. unfold visit_local_get, vbind. pose proof (local_ok X s u seg below i Hi In) as P.
  destruct (nth_error (cx_locals C) (Z.to_nat i)) as [t|] eqn:Hn.
  - rewrite P. assert (Hl : (Z.to_nat i < List.length (cx_locals C))%nat) by (apply nth_error_Some; congruence).
    destruct (in_inits _ _ _ _ _ _ In i Hi Hl) as (b & B1 & B2). unfold local_is_uninit, vbind, vget. rewrite B1. cbn [vunwrap]. unfold vret at 1.
    destruct b; cbn [negb]; unfold vcheck.
    + assert (S : push_operand t s = by_sig E (Some ([], [t])) s) by reflexivity. cbn [vret]. rewrite S.
      apply (fixed_ok E C HM HE); auto. intros a b. rewrite typ_local_get, Hn. cbn [rev app map].
      split; [intros (t' & H & _ & K); injection H as <-; exact K|]. intros K. exists t. destruct K. split; [reflexivity|]. split; [tauto|auto].
    + intros a b H. apply typ_local_get in H. destruct H as (t' & _ & H & _). apply B2 in H. discriminate.
  - apply none_ok; [intros a b H; apply typ_local_get in H; destruct H as (t & H & _); congruence|]. destruct (local E i s); tauto.
Qed.
Lemma local_set_step X i s u seg below : 0 <= i -> inst C X s u seg below -> ok_step X (Op_LocalSet i) s u seg below (visit_op E (Op_LocalSet i) s).
Proof.
  intros Hi In. cbn [visit_op]. unfold visit_local_set, vbind. pose proof (local_ok X s u seg below i Hi In) as P.
  destruct (nth_error (cx_locals C) (Z.to_nat i)) as [t|] eqn:Hn.
  - rewrite P. pose proof (popv_inst E C HM HE X s u seg below t In) as Q.
    assert (T : forall a b, typ C X (Op_LocalSet i) a b <-> a = [DVal t] /\ b = dv []).
    { intros a b. rewrite typ_local_set, Hn. split; [intros (t' & H & K); injection H as <-; exact K|]. intros K. exists t. auto. }
    destruct (pop E t s) as [[] s1| |]; [|intros a b H F; apply T in H; destruct H as [-> ->]; contradiction..].
    destruct Q as (F & O & In1). destruct (set_local_ok X s1 u _ below i t Hi Hn In1) as (s2 & -> & In2 & K2).
    cbn [TypeInst.ok_step sets app]. exists u, (skipn 1 seg). split; [exact In2|]. split; [eapply kept_trans; [eapply kept_ops; eassumption|exact K2]|].
    apply (stepped_fixed C HM _ u seg [DVal t] [] T F).
  - apply none_ok; [intros a b H; apply typ_local_set in H; destruct H as (t & H & _); congruence|]. destruct (local E i s); tauto.
Qed.
Lemma local_tee_step X i s u seg below : 0 <= i -> inst C X s u seg below -> ok_step X (Op_LocalTee i) s u seg below (visit_op E (Op_LocalTee i) s).
Proof.
  intros Hi In. cbn [visit_op]. unfold visit_local_tee, vbind. pose proof (local_ok X s u seg below i Hi In) as P.
  destruct (nth_error (cx_locals C) (Z.to_nat i)) as [t|] eqn:Hn.
  - rewrite P. pose proof (popv_inst E C HM HE X s u seg below t In) as Q.
    assert (T : forall a b, typ C X (Op_LocalTee i) a b <-> a = [DVal t] /\ b = dv [t]).
    { intros a b. rewrite typ_local_tee, Hn. split; [intros (t' & H & K); injection H as <-; exact K|]. intros K. exists t. auto. }
    destruct (pop E t s) as [[] s1| |]; [|intros a b H F; apply T in H; destruct H as [-> ->]; contradiction..].
    destruct Q as (F & O & In1). destruct (set_local_ok X s1 u _ below i t Hi Hn In1) as (s2 & -> & In2 & K2).
    destruct (push_maybe_ok (Known t) s2 u _ below (in_view _ _ _ _ _ _ In2)) as (s3 & S3 & O3 & V3). unfold push_operand. rewrite S3.
    cbn [TypeInst.ok_step sets app]. exists u, (Known t :: skipn 1 seg). split; [eapply inst_ops; eassumption|].
    split; [eapply kept_trans; [eapply kept_ops; eassumption|]; eapply kept_trans; [exact K2|eapply kept_ops; eassumption]|].
    apply (stepped_fixed C HM _ u seg [DVal t] [t] T F).
  - apply none_ok; [intros a b H; apply typ_local_tee in H; destruct H as (t & H & _); congruence|]. destruct (local E i s); tauto.
Qed.

(** ** [select] *)
Lemma num_not_ref m t : num_or_vec t -> mt C m t -> match m with UnknownRef _ => False | Known (VRef _) => False | _ => True end.
Proof.
  intros N H. unfold mt in H. destruct m as [|[a|]|v]; cbn [least] in H; auto.
  - destruct t as [| | |w]; cbn in *; auto. destruct H as [sh H]. destruct (sub_ref C HM _ _ H) as [x ->]. discriminate.
  - destruct t as [| | |w]; cbn in *; auto. destruct w; try contradiction. discriminate.
  - destruct v; auto. destruct t as [| | |w]; cbn in *; auto. destruct (sub_ref C HM _ _ H) as [x ->]. discriminate.
Qed.
Lemma select_step X s u seg below : inst C X s u seg below -> ok_step X Op_Select s u seg below (visit_op E Op_Select s).
Proof.
  intros In. cbn [visit_op]. unfold visit_select, vbind.
  assert (T : forall a b, typ C X Op_Select a b <-> exists t, num_or_vec t /\ a = [DVal VI32; t; t] /\ b = [t]).
  { intros a b. split; [typ_of; rev_eqs; eauto|]. intros (t & N & -> & ->). exists []. constructor. exact N. }
  pose proof (popv_inst E C HM HE X s u seg below VI32 In) as P.
  assert (D : forall t, fits C u seg [DVal VI32; t; t] <-> fits C u seg [DVal VI32] /\ fits C u (skipn 1 seg) [t; t]) by (intros t; apply (fits_app C u [DVal VI32])).
  destruct (pop E VI32 s) as [[] s1| |].
  2,3: intros a b H F; apply T in H; destruct H as (t & N & -> & ->); apply D in F; tauto.
  destruct P as (F0 & O0 & In1). pose proof (pop_top E C HM HE None s1 u _ below (in_view _ _ _ _ _ _ In1)) as P.
  destruct (pop_operand E None s1) as [m1 s2| |].
  2,3: intros a b H F; apply T in H; destruct H as (t & N & -> & ->); apply D in F; destruct F as [_ F]; apply fits_top in F; destruct F as (m & seg' & F & _); exact (P _ _ F I).
  destruct P as (seg2 & H1 & _ & O1 & V1). pose proof (inst_ops _ _ _ _ _ _ _ _ In1 O1 V1) as In2.
  pose proof (pop_top E C HM HE None s2 u _ below V1) as P.
  destruct (pop_operand E None s2) as [m2 s3| |].
  2,3: intros a b H F; apply T in H; destruct H as (t & N & -> & ->); apply D in F; destruct F as [_ F]; apply fits_top in F; destruct F as (m & seg' & F & _ & G); rewrite H1 in F; injection F as <- <-;
    apply fits_top in G; destruct G as (m & seg' & F & _); exact (P _ _ F I).
  destruct P as (seg3 & H2 & _ & O2 & V2). pose proof (inst_ops _ _ _ _ _ _ _ _ In2 O2 V2) as In3.
  assert (D' : forall t, fits C u (skipn 1 seg) [t; t] <-> mt C m1 t /\ mt C m2 t).
  { intros t. rewrite fits_top. split.
    - intros (m & seg' & F & M & G). rewrite H1 in F. injection F as <- <-. split; [exact M|]. apply fits_top in G. destruct G as (m & seg' & F & G & _). rewrite H2 in F. injection F as <- <-. exact G.
    - intros [M1 M2]. exists m1, seg2. split; [exact H1|]. split; [exact M1|]. apply fits_top. exists m2, seg3. auto using fits_nil. }
  assert (Bad : (forall t, num_or_vec t -> mt C m1 t -> mt C m2 t -> False) -> stuck C (typ C X Op_Select) u seg).
  { intros Q a b H F. apply T in H. destruct H as (t & N & -> & ->). apply D in F. destruct F as [_ F]. apply D' in F. eapply Q; try exact N; tauto. }
  assert (Good : forall m, num_or_vec (least m) -> mt C m1 (least m) -> mt C m2 (least m) -> (forall t, num_or_vec t -> mt C m1 t -> mt C m2 t -> mt C m t) ->
    ok_step X Op_Select s u seg below (push_maybe m s3)).
  { intros m N M1 M2 Q. destruct (push_maybe_ok m s3 u _ below V2) as (s4 & -> & O4 & V4). cbn [TypeInst.ok_step sets app]. exists u, (m :: seg3).
    split; [eapply inst_ops; eassumption|]. split.
    { eapply kept_ops; [exact In|]. eapply opsrel_trans; [exact O0|]. eapply opsrel_trans; [exact O1|]. eapply opsrel_trans; [exact O2|exact O4]. }
    intros us. assert (K : skipn 3 seg = seg3) by (rewrite <- (skipn_add 1 2), (skip_top _ _ _ _ 1 H1), (skip_top _ _ _ _ 0 H2); reflexivity). split.
    - destruct us as [|t us]; [contradiction|]. intros [M S]. exists [DVal VI32; least m; least m], [least m], us. split; [apply T; eauto|].
      split; [apply D; split; [exact F0|apply D'; auto]|]. cbn [List.length]. rewrite K. split; [exact S|]. constructor; [exact M|apply dsubs_refl, HM].
    - intros (a & b & f & Ha & F & S & U). apply T in Ha. destruct Ha as (t & N' & -> & ->). apply D in F. destruct F as [_ F]. apply D' in F.
      cbn [List.length] in S. rewrite K in S. apply (sem_up C HM _ _ (t :: f)); [|exact U]. split; [apply Q; tauto|exact S]. }
  assert (NB : forall v, is_ref v = false -> num_or_vec (least (Known v))) by (intros v Hv; exact Hv).
  assert (RF : forall m, mt C m (least m)) by (intros m; apply dsub_refl, HM).
  assert (E1 : forall v t, is_ref v = false -> num_or_vec t -> mt C (Known v) t -> t = DVal v).
  { intros v t Hv N M. unfold mt in M. cbn [least] in M. destruct t as [| | |w]; cbn in *; try contradiction. destruct (sub_cases C HM _ _ M) as [(x & y & -> & _)|[-> _]]; [discriminate|reflexivity]. }
  assert (BR : forall x, (m1 = x \/ m2 = x) -> match x with UnknownRef _ => True | Known (VRef _) => True | _ => False end ->
    (stuck C (typ C X Op_Select) u seg)).
  { intros x Hx Kx. apply Bad. intros t N M1 M2. destruct Hx; subst x; [apply (num_not_ref _ _ N) in M1|apply (num_not_ref _ _ N) in M2]; destruct m1 as [| |[]]; destruct m2 as [| |[]]; tauto. }
  assert (FailEq : forall msg, stuck C (typ C X Op_Select) u seg -> ok_step X Op_Select s u seg below (match vfail E msg s3 with VOk t s' => push_maybe t s' | VErr e s' => VErr e s' | VPanic => VPanic end)) by (intros msg K; exact K).
  destruct m1 as [|x1|v1], m2 as [|x2|v2]; try solve [apply FailEq; eapply BR; [left; reflexivity|exact I]]; try solve [apply FailEq; eapply BR; [right; reflexivity|exact I]].
  - apply Good; auto; exact I.
  - destruct (is_ref v2) eqn:Hv; [destruct v2; try discriminate; apply FailEq; eapply BR; [right; reflexivity|exact I]|].
    assert (G : ok_step X Op_Select s u seg below (push_maybe (Known v2) s3)) by (apply Good; auto; exact I). destruct v2; try discriminate; exact G.
  - destruct (is_ref v1) eqn:Hv; [destruct v1; try discriminate; apply FailEq; eapply BR; [left; reflexivity|exact I]|].
    assert (G : ok_step X Op_Select s u seg below (push_maybe (Known v1) s3)) by (apply Good; auto; exact I). destruct v1; try discriminate; exact G.
  - destruct v1; apply FailEq; (eapply BR; [right; reflexivity|exact I]).
  - destruct (is_ref v1) eqn:Hv1; [destruct v1; try discriminate; apply FailEq; eapply BR; [left; reflexivity|exact I]|].
    destruct (is_ref v2) eqn:Hv2; [destruct v2, v1; try discriminate; apply FailEq; (eapply BR; [right; reflexivity|exact I])|].
    assert (G : ok_step X Op_Select s u seg below (match (vcheck E (val_eqb v1 v2) "type mismatch: select operands have different types" ;; vret (Known v1)) s3 with
       VOk t s' => push_maybe t s' | VErr e s' => VErr e s' | VPanic => VPanic end)).
    { unfold vbind, vcheck. destruct (val_eqb v1 v2) eqn:Ev.
      - apply val_eqb_eq in Ev. subst v2. cbn. apply Good; auto.
      - cbn. apply Bad. intros t N M1 M2. apply E1 in M1; auto. apply E1 in M2; auto. subst t. injection M2 as ->. assert (val_eqb v2 v2 = true) by (apply val_eqb_eq; reflexivity). congruence. }
    destruct v1; try discriminate; destruct v2; try discriminate; exact G.
Qed.
End Ops.
