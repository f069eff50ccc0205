(** Operators with rules of their own: branches, locals, returns and throws, [drop] and [select]. *)
From Verif.Base Require Import Prelude.
From Verif.Locals Require Import Model Proofs.
From Verif.Types Require Import RefModel CodecModel CanonModel.
From Verif.Instr Require Import ImmModel Ops.
From Verif.Validator Require Import State Checks Visit Undo Top Sig TypeSpec TypeBase TypeSem TypeLook TypeSig TypeSigs TypeInst.

Lemma rev_is {A} (a b : list A) : b = rev a -> a = rev b. Proof. intros ->. rewrite rev_involutive. reflexivity. Qed.
Ltac rev_eqs := repeat match goal with
  | H : _ = rev ?a |- _ => apply rev_is in H; subst a
  | H : rev ?a = _ |- _ => symmetry in H; apply rev_is in H; subst a
  end; rewrite ?rev_app_distr, ?map_rev, ?rev_involutive; cbn [rev app map].
Ltac no_sig := match goal with H : sig _ _ = Some _ |- _ => discriminate H end.
Ltac typ_of := match goal with |- ?t -> _ => let xs := fresh "xs" in let H := fresh in intros (xs & H); inversion H; subst; try no_sig; try contradiction;
  try match goal with K : ?o = Op_I31GetS \/ _ |- _ => destruct K; discriminate end; clear H end.

Section Ops.
Variable E : env.
Variable C : ctx.
Hypothesis HM : res_ok (cx_mod C).
Hypothesis HE : envok E C.
Notation ok_step := (ok_step C).
Lemma none_ok X o s u seg below (r : vres unit) : (forall a b, ~ typ C X o a b) -> (match r with VOk _ _ => False | _ => True end) ->
  ok_step X o s u seg below r.
Proof. intros H K. destruct r; try contradiction; intros a b T; elim (H _ _ T). Qed.
Lemma poly_ok X o s u seg below ins : inst C X s u seg below -> sets (IOp o) = [] ->
  (forall a b, typ C X o a b <-> exists x, a = dv (rev ins) ++ x) -> ok_step X o s u seg below ((pops E ins ;; unreachable) s).
Proof.
  intros In So HP. unfold vbind. pose proof (pops_ok E C HM (eo_res _ _ HE) ins s u seg below (in_view _ _ _ _ _ _ In)) as P.
  assert (Q : ~ fits C u seg (dv (rev ins)) -> stuck C (typ C X o) u seg).
  { apply (stuck_poly C HM). intros a b H. apply HP in H. destruct H as (x & ->). exists x. apply dsubs_refl, HM. }
  destruct (pops E ins s) as [[] s1| |]; [|exact (Q P)..]. destruct P as (O & F & V).
  pose proof (inst_ops _ _ _ _ _ _ _ _ In O V) as In1. destruct (unreachable_ok C _ _ _ _ _ In1) as (s2 & -> & In2 & K2).
  cbn [TypeInst.ok_step]. rewrite So. exists true, []. split; [exact In2|]. split.
  - eapply kept_trans; [eapply kept_ops; eassumption|exact K2].
  - eapply stepped_poly; [exact HM| |exact F]. intros x b. apply HP. eauto.
Qed.

Lemma unreachable_step X s u seg below : inst C X s u seg below -> ok_step X Op_Unreachable s u seg below (visit_op E Op_Unreachable s).
Proof.
  intros In. apply (poly_ok X Op_Unreachable s u seg below [] In eq_refl). intros a b. split; [intros _; exists a; reflexivity|].
  intros _. exists []. constructor.
Qed.
Lemma drop_step X s u seg below : inst C X s u seg below -> ok_step X Op_Drop s u seg below (visit_op E Op_Drop s).
Proof.
  intros In. cbn [visit_op]. unfold visit_drop, vbind, vret.
  assert (T : forall a b, typ C X Op_Drop a b <-> (exists t, a = [t]) /\ b = []).
  { intros a b. split; [typ_of; rev_eqs; eauto|]. intros [[t ->] ->]. exists []. constructor. }
  pose proof (pop_top E C HM HE None s u seg below (in_view _ _ _ _ _ _ In)) as P.
  destruct (pop_operand E None s) as [m s'| |].
  2,3: intros a b H F; apply T in H; destruct H as [[t ->] ->]; apply fits_top in F; destruct F as (m & seg' & F & _); exact (P _ _ F I).
  destruct P as (seg' & H & _ & O & V). exists u, seg'. split; [eapply inst_ops; eassumption|]. split; [eapply kept_ops; eassumption|].
  intros us. split.
  - intros K. destruct (mt_some C HM m) as (t & Ht). exists [t], [], us. split; [apply T; eauto|]. split; [apply fits_top; exists m, seg'; auto using fits_nil|].
    cbn [List.length]. rewrite (skip_top _ _ _ _ _ H). split; [exact K|apply dsubs_refl, HM].
  - intros (a & b & f & Ha & F & K & U). apply T in Ha. destruct Ha as [[t ->] ->]. cbn [List.length] in K. rewrite (skip_top _ _ _ _ _ H) in K.
    eapply sem_up; eassumption.
Qed.

(** ** Branches *)
Lemma br_step X d s u seg below : inst C X s u seg below -> ok_step X (Op_Br d) s u seg below (visit_op E (Op_Br d) s).
Proof.
  intros In. cbn [visit_op].
  assert (T : forall a b, typ C X (Op_Br d) a b <-> exists l x, label C d = Some l /\ a = dv (rev l) ++ x).
  { intros a b. split; [typ_of; rev_eqs; exists l; eexists; split; [assumption|rewrite map_rev; reflexivity]|].
    intros (l & x & L & ->). exists []. rewrite rev_app_distr, map_rev, rev_involutive. constructor. exact L. }
  pose proof (at_label_ok E C HE X s u seg below d (fun ts => pops E ts ;; unreachable) In) as P.
  unfold visit_br. change (ok_step X (Op_Br d) s u seg below (at_label E d (fun ts => pops E ts ;; unreachable) s)).
  destruct (label C d) as [l|].
  - rewrite P. apply poly_ok; auto. intros a b. rewrite T. split; [intros (l' & x & H & ->); injection H as <-; eauto|intros (x & ->); eauto].
  - apply none_ok; [|exact P]. intros a b H. apply T in H. destruct H as (l & x & H & _). discriminate.
Qed.
Lemma popv_inst X s u seg below t : inst C X s u seg below ->
  match pop E t s with VOk _ s' => fits C u seg [DVal t] /\ opsrel s s' /\ inst C X s' u (skipn 1 seg) below | _ => ~ fits C u seg [DVal t] end.
Proof.
  intros In. pose proof (popv_ok E C HM (eo_res _ _ HE) t s u seg below (in_view _ _ _ _ _ _ In)) as P. destruct (pop E t s) as [x s'| |]; auto.
  destruct P as (O & F & V). split; [exact F|]. split; [exact O|]. eapply inst_ops; eassumption.
Qed.
Lemma at_label_after {A} X s u seg below d t (k : list val -> V A) l : inst C X s u seg below -> label C d = Some l ->
  (pop E t ;; at_label E d k) s = (pop E t ;; k l) s.
Proof.
  intros In L. unfold vbind. pose proof (popv_inst X s u seg below t In) as P. destruct (pop E t s) as [[] s1| |]; auto.
  destruct P as (_ & _ & In1). pose proof (at_label_ok E C HE X s1 u _ below d k In1) as Q. rewrite L in Q. exact Q.
Qed.
Lemma at_label_none {A} X s u seg below d t (k : list val -> V A) : inst C X s u seg below -> label C d = None ->
  match (pop E t ;; at_label E d k) s with VOk _ _ => False | _ => True end.
Proof.
  intros In L. unfold vbind at 1. pose proof (popv_inst X s u seg below t In) as P. destruct (pop E t s) as [[] s1| |]; auto.
  destruct P as (_ & _ & In1). pose proof (at_label_ok E C HE X s1 u _ below d k In1) as Q. rewrite L in Q. exact Q.
Qed.
Lemma pops_one t s : pops E [t] s = pop E t s.
Proof. unfold pops. cbn [rev app vall]. unfold vbind, vret. destruct (pop E t s) as [[] ?| |]; reflexivity. Qed.
Lemma br_if_step X d s u seg below : inst C X s u seg below -> ok_step X (Op_BrIf d) s u seg below (visit_op E (Op_BrIf d) s).
Proof.
  intros In. cbn [visit_op].
  assert (T : forall a b, typ C X (Op_BrIf d) a b <-> exists l, label C d = Some l /\ a = dv (rev (l ++ [VI32])) /\ b = dv (rev l)).
  { intros a b. split; [typ_of; rev_eqs; exists l; rewrite ?rev_app_distr; cbn [rev app map]; rewrite ?map_rev; auto|].
    intros (l & L & -> & ->). exists []. rewrite !map_rev, !rev_involutive, map_app. constructor. exact L. }
  change (visit_br_if E d s) with ((pop E VI32 ;; at_label E d (fun ts => pop_push_label_types E ts)) s).
  destruct (label C d) as [l|] eqn:L.
  - rewrite (at_label_after X s u seg below d VI32 _ l In L).
    assert (S : (pop E VI32 ;; pop_push_label_types E l) s = by_sig E (Some (l ++ [VI32], l)) s).
    { cbn [by_sig]. unfold vbind at 2. rewrite pops_app. unfold pop_push_label_types, vbind. rewrite pops_one. destruct (pop E VI32 s) as [[] ?| |]; reflexivity. }
    rewrite S. apply (fixed_ok E C HM HE); auto. intros a b. rewrite T. split; [intros (l' & H & K); injection H as <-; exact K|eauto].
  - apply none_ok; [|eapply at_label_none; eassumption]. intros a b H. apply T in H. destruct H as (l & H & _). discriminate.
Qed.

(** ** Leaving the function *)
Lemma return_step X s u seg below : inst C X s u seg below -> ok_step X Op_Return s u seg below (visit_op E Op_Return s).
Proof.
  intros In. cbn [visit_op]. unfold visit_return, check_return. unfold vbind at 1. rewrite (outermost_ok E C HE _ _ _ _ _ In).
  apply poly_ok; auto. intros a b. split; [typ_of; rev_eqs; eexists; rewrite ?map_rev; reflexivity|].
  intros (x & ->). exists []. rewrite rev_app_distr, map_rev, rev_involutive. constructor.
Qed.
Lemma throw_step X i s u seg below : inst C X s u seg below -> ok_step X (Op_Throw i) s u seg below (visit_op E (Op_Throw i) s).
Proof.
  intros In. cbn [visit_op]. unfold visit_throw. unfold vbind at 1.
  assert (T : forall a b, typ C X (Op_Throw i) a b <-> exists l x, sig_tag C i = Some l /\ a = dv (rev l) ++ x).
  { intros a b. split; [typ_of; rev_eqs; do 2 eexists; split; [eassumption|rewrite map_rev; reflexivity]|].
    intros (l & x & L & ->). exists []. rewrite rev_app_distr, map_rev, rev_involutive. constructor. exact L. }
  pose proof (look_exn_tag E C HE i s (inst_shared _ _ _ _ _ _ In)) as P.
  destruct (exception_tag_at E i s) as [f s'| |].
  - destruct P as [-> P]. destruct (sig_tag C i) as [ps|]; [|discriminate]. injection P as <-. cbn [fn_params]. apply poly_ok; auto.
    intros a b. rewrite T. split; [intros (l' & x & H & ->); injection H as <-; eauto|intros (x & ->); eauto].
  - intros a b H. apply T in H. destruct H as (l & x & H & _). rewrite H in P. discriminate.
  - intros a b H. apply T in H. destruct H as (l & x & H & _). rewrite H in P. discriminate.
Qed.
Lemma throw_ref_step X s u seg below : inst C X s u seg below -> ok_step X Op_ThrowRef s u seg below (visit_op E Op_ThrowRef s).
Proof.
  intros In. cbn [visit_op].
  assert (S : visit_throw_ref E s = (pops E [EXNREF] ;; unreachable) s).
  { unfold visit_throw_ref, pops. cbn [rev app vall]. unfold vbind, vret. destruct (pop E EXNREF s) as [[] ?| |]; reflexivity. }
  rewrite S. apply poly_ok; auto. intros a b. split; [typ_of; rev_eqs; eexists; rewrite ?map_rev; reflexivity|].
  intros (x & ->). exists []. rewrite rev_app_distr. cbn [rev app map]. constructor.
Qed.
Definition is_return_call (o : operator) : bool := match o with Op_ReturnCall _ | Op_ReturnCallIndirect _ _ | Op_ReturnCallRef _ => true | _ => false end.
Lemma fail_meq {A} (q : V A) : (forall s, inv C s -> match q s with VOk _ _ => False | _ => True end) -> meq C q vpanic.
Proof. intros H s I. specialize (H s I). destruct (q s); cbn; tauto. Qed.
Lemma return_call_eq o : is_return_call o = true -> meq C (visit_op E o)
  (match callee C o with Some (top, f) => pops E top ;; check_return_call_ty E f | None => vpanic end).
Proof.
  intros H s Hs; destruct o; try discriminate H; clear H; cbn [visit_op callee].
  - unfold visit_return_call, vbind at 1. pose proof (look_function E C HE function_index s Hs) as P.
    destruct (type_of_function E function_index s) as [f s'| |].
    + destruct P as [-> P]. destruct (r_type_index_of_function _ _); [|discriminate]. rewrite P. apply same_refl.
    + destruct (r_type_index_of_function _ _); [rewrite P|]; exact I.
    + destruct (r_type_index_of_function _ _); [rewrite P|]; exact I.
  - unfold visit_return_call_indirect, check_call_indirect_ty, vbind. pose proof (look_table E C HE table_index s Hs) as P.
    destruct (table_type_at E table_index s) as [x s'| |]; [|rewrite P; exact I..]. destruct P as [-> ->].
    unfold Checks.sub. rewrite (eo_res _ _ HE). fold (sub C (VRef (tb_elem x)) FUNCREF).
    destruct (sub C (VRef (tb_elem x)) FUNCREF); cbn [guard]; [|destruct (sig_func C type_index); exact I]. unfold vcheck at 1, vret at 1.
    destruct (pop E (index_type (tb_64 x)) s) as [[] s1| |] eqn:Ep.
    + pose proof (keeps_opnd C _ (opnd_pop E (index_type (tb_64 x))) s tt s1 Hs Ep) as Hs1. pose proof (look_func E C HE type_index s1 Hs1) as P.
      destruct (func_type_at E type_index s1) as [f s2| |]; [|rewrite P; exact I..]. destruct P as [-> ->].
      rewrite pops_one, Ep. apply same_refl.
    + destruct (sig_func C type_index); [|exact I]. rewrite pops_one, Ep. exact I.
    + destruct (sig_func C type_index); [|exact I]. rewrite pops_one, Ep. exact I.
  - assert (Q : visit_return_call_ref E type_index s = (let! r := (let! h := check_heap_type E (HC (UModule type_index)) in vunwrap (r_new true h)) in
      let! f := (pop_ref E (Some r) ;; func_type_at E type_index) in check_return_call_ty E f) s).
    { unfold visit_return_call_ref, check_call_ref_ty, vbind. destruct (check_heap_type E _ s); auto. destruct (vunwrap _ _); auto. }
    rewrite Q. clear Q. unfold vbind at 1. pose proof (look_callee_ref E C HM HE type_index s Hs) as P.
    destruct ((let! h := check_heap_type E (HC (UModule type_index)) in vunwrap (r_new true h)) s) as [r s'| |].
    2,3: destruct (ref_type C true type_index) as [[| | | | |r']|] eqn:Er; try exact I; try discriminate; unfold ref_type in Er; destruct (reference C _); discriminate.
    destruct P as [-> P]. destruct (ref_type C true type_index) as [[| | | | |r']|]; try discriminate. injection P as ->.
    unfold vbind at 1 2. pose proof (pop_ref_ok E C HM HE r s) as R. unfold vbind, vret in R.
    assert (K : forall f, (pops E [VRef r] ;; check_return_call_ty E f) s = (pop E (VRef r) ;; check_return_call_ty E f) s)
      by (intros f; unfold vbind; rewrite pops_one; reflexivity).
    destruct (pop_ref E (Some (r : rf)) s) as [x s1| |], (pop E (VRef (r : rf)) s) as [[] s2| |] eqn:Ep; cbn in R; try contradiction.
    + destruct R as [_ ->]. pose proof (keeps_opnd C _ (opnd_pop E (VRef (r : rf))) s tt s2 Hs Ep) as Hs1.
      pose proof (look_func E C HE type_index s2 Hs1) as P. destruct (func_type_at E type_index s2) as [f s3| |]; [|rewrite P; exact I..].
      destruct P as [-> ->]. rewrite K. unfold vbind. rewrite Ep. apply same_refl.
    + destruct (sig_func C type_index); [rewrite K; unfold vbind; rewrite Ep|]; exact I.
    + destruct (sig_func C type_index); [rewrite K; unfold vbind; rewrite Ep|]; exact I.
    + destruct (sig_func C type_index); [rewrite K; unfold vbind; rewrite Ep|]; exact I.
    + destruct (sig_func C type_index); [rewrite K; unfold vbind; rewrite Ep|]; exact I.
Qed.
Lemma same_results_ok l m : ((List.length l =? List.length m)%nat && zip_all (fun caller callee => Checks.sub E callee caller) m l) = true <-> dsubs C (dv l) (dv m).
Proof.
  unfold dsubs, Checks.sub. rewrite (eo_res _ _ HE). revert m. induction l as [|a l IH]; intros [|b m]; cbn [List.length map zip_all].
  - split; [constructor|reflexivity].
  - split; [discriminate|intros H; inversion H].
  - split; [discriminate|intros H; inversion H].
  - specialize (IH m). change (S (List.length l) =? S (List.length m))%nat with (List.length l =? List.length m)%nat. split.
    + intros H. apply andb_prop in H. destruct H as [H1 H]. apply andb_prop in H. destruct H as [H2 H3]. constructor; [exact H2|]. apply IH. rewrite H1, H3. reflexivity.
    + intros H. inversion H; subst. apply IH in H5. apply andb_prop in H5. destruct H5 as [-> ->]. cbn [dsub] in H3. unfold sub in H3. rewrite H3. reflexivity.
Qed.
Lemma fits_known u vs seg ts : dsubs C (dv vs) ts -> fits C u (map Known vs ++ seg) ts.
Proof. intros H. remember (dv vs) as l. revert vs Heql. induction H; intros [|v vs] Hl; cbn [map app fits] in *; try discriminate; [destruct seg; exact I|]. injection Hl as -> ->. split; auto. Qed.
Lemma return_call_step X o s u seg below : is_return_call o = true -> inst C X s u seg below -> ok_step X o s u seg below (visit_op E o s).
Proof.
  intros Ho In. eapply ok_step_same; [apply (return_call_eq o Ho); exact (inst_shared _ _ _ _ _ _ In)|].
  assert (So : sets (IOp o) = []) by (destruct o; try discriminate Ho; reflexivity).
  assert (T : forall a b, typ C X o a b <-> exists top f x, callee C o = Some (top, f) /\ dsubs C (dv (fn_results f)) (dv (cx_return C)) /\ a = dv (rev (fn_params f ++ top)) ++ x).
  { intros a b. split.
    - intros (xs & H). inversion H; subst; try discriminate Ho.
      + destruct o; try discriminate Ho; discriminate.
      + rev_eqs. exists top, f. eexists. split; [assumption|]. split; [assumption|]. rewrite map_rev. reflexivity.
      + match goal with K : _ \/ _ |- _ => destruct K; subst; discriminate end.
    - intros (top & f & x & K & D & ->). exists []. rewrite rev_app_distr, map_rev, rev_involutive. apply ok_return_call; auto.
      destruct o; try discriminate Ho; exact I. }
  destruct (callee C o) as [[top f]|]; [|apply none_ok; [intros a b H; apply T in H; destruct H as (t & f & x & H & _); discriminate|exact I]].
  destruct (same_results_ok (fn_results f) (cx_return C)) as [S1 S2].
  unfold check_return_call_ty, check_func_type_same_results.
  assert (Q : ~ fits C u seg (dv (rev (fn_params f ++ top))) -> stuck C (typ C X o) u seg).
  { apply (stuck_poly C HM). intros a b H. apply T in H. destruct H as (t & f' & x & H & _ & ->). injection H as <- <-. exists x. apply dsubs_refl, HM. }
  rewrite rev_app_distr, map_app in Q.
  unfold vbind. pose proof (pops_ok E C HM (eo_res _ _ HE) top s u seg below (in_view _ _ _ _ _ _ In)) as P.
  destruct (pops E top s) as [[] s1| |]; [|apply Q; rewrite fits_app; tauto..]. destruct P as (O1 & F1 & V1).
  pose proof (inst_ops _ _ _ _ _ _ _ _ In O1 V1) as In1. rewrite (outermost_ok E C HE _ _ _ _ _ In1).
  destruct (_ && _) eqn:Hr.
  2: { cbn. intros a b H. apply T in H. destruct H as (t & f' & x & H & D & _). injection H as <- <-. apply S2 in D. congruence. }
  specialize (S1 eq_refl). clear S2. unfold vcheck at 1, vret at 1.
  pose proof (pops_ok E C HM (eo_res _ _ HE) (fn_params f) s1 u _ below V1) as P.
  destruct (pops E (fn_params f) s1) as [[] s2| |]; [|apply Q; rewrite fits_app, map_length, rev_length; tauto..]. destruct P as (O2 & F2 & V2).
  destruct (pushes_ok (fn_results f) s2 u _ below V2) as (s3 & -> & O3 & V3).
  pose proof (inst_ops _ _ _ _ _ _ _ _ (inst_ops _ _ _ _ _ _ _ _ In1 O2 V2) O3 V3) as In3.
  unfold check_return, vbind. rewrite (outermost_ok E C HE _ _ _ _ _ In3).
  pose proof (pops_ok E C HM (eo_res _ _ HE) (cx_return C) s3 u _ below V3) as P.
  assert (F3 : fits C u (map Known (rev (fn_results f)) ++ skipn (List.length (fn_params f)) (skipn (List.length top) seg)) (dv (rev (cx_return C)))).
  { apply fits_known. rewrite !map_rev. apply -> dsubs_rev. exact S1. }
  destruct (pops E (cx_return C) s3) as [[] s4| |]; [|contradiction..]. destruct P as (O4 & _ & V4).
  pose proof (inst_ops _ _ _ _ _ _ _ _ In3 O4 V4) as In4. destruct (unreachable_ok C _ _ _ _ _ In4) as (s5 & -> & In5 & K5).
  cbn [TypeInst.ok_step]. rewrite So. exists true, []. split; [exact In5|]. split.
  - eapply kept_trans; [eapply kept_ops; [exact In|]|exact K5]. eapply opsrel_trans; [exact O1|]. eapply opsrel_trans; [exact O2|]. eapply opsrel_trans; eassumption.
  - eapply (stepped_poly C HM _ u seg (dv (rev (fn_params f ++ top)))).
    + intros x b. apply T. exists top, f, x. auto.
    + rewrite rev_app_distr, map_app, fits_app, map_length, rev_length. auto.
Qed.
End Ops.
