(** Operators with rules of their own, concluded: [br_table] and references. *)
From Verif.Base Require Import Prelude.
From Verif.Locals Require Import Model Proofs.
From Verif.Types Require Import RefModel CodecModel CanonModel.
From Verif.Instr Require Import ImmModel Ops.
From Verif.Validator Require Import State Checks Visit Undo Top Sig TypeSpec TypeBase TypeSem TypeLook TypeSig TypeSigs TypeInst TypeOps TypeOps2.

Section Ops.
Variable E : env.
Variable C : ctx.
Hypothesis HM : res_ok (cx_mod C).
Hypothesis HE : envok E C.
Notation ok_step := (ok_step C).

(** ** [br_table] *)
Definition takes (n : nat) (seg : list (maybe val)) : list (maybe val) := firstn n seg ++ repeat Bottom (n - List.length seg).
Definition enough (u : bool) (n : nat) (seg : list (maybe val)) : Prop := (n <= List.length seg)%nat \/ u = true.
Lemma takes_length n seg : List.length (takes n seg) = n.
Proof. unfold takes. rewrite app_length, firstn_length, repeat_length. lia. Qed.
Lemma fits_enough u ts : forall seg, fits C u seg ts -> enough u (List.length ts) seg.
Proof.
  unfold enough. induction ts as [|t ts IH]; intros [|m seg] H; cbn [fits List.length] in *; auto; try lia.
  destruct H as [_ H]. specialize (IH _ H). lia.
Qed.
Lemma fits_takes u ts : forall seg, enough u (List.length ts) seg -> (fits C u seg ts <-> dsubs C (map least (takes (List.length ts) seg)) ts).
Proof.
  unfold enough, dsubs, takes. induction ts as [|t ts IH]; intros seg H.
  - cbn. split; [constructor|]. intros _. destruct seg; exact I.
  - destruct seg as [|m seg]; cbn [fits List.length firstn repeat Nat.sub map app] in *.
    + split; [intros _; constructor; [exact I|]|intros _; destruct H; [lia|assumption]].
      clear. induction ts; cbn; constructor; [exact I|assumption].
    + rewrite IH by lia. split; [intros [H1 H2]; constructor; assumption|]. intros K. inversion K; subst. auto.
Qed.
Lemma takes_top u seg m seg' n : top u seg = Some (m, seg') -> takes (S n) seg = m :: takes n seg'.
Proof.
  destruct seg as [|x seg]; cbn [top]; [destruct u; [|discriminate]|]; intros H; injection H as <- <-; unfold takes; cbn [firstn repeat Nat.sub List.length app]; [|reflexivity].
  destruct n; reflexivity.
Qed.
Lemma pop_list_ok l : forall s u seg below, view s u seg below ->
  match pop_list E l s with
  | VOk found s' => opsrel s s' /\ fits C u seg (dv l) /\ found = rev (takes (List.length l) seg) /\ view s' u (skipn (List.length l) seg) below
  | _ => ~ fits C u seg (dv l)
  end.
Proof.
  induction l as [|t l IH]; intros s u seg below V; cbn [pop_list map].
  - split; [apply opsrel_refl|]. split; [apply fits_nil|]. split; [unfold takes; cbn; reflexivity|exact V].
  - unfold vbind. pose proof (pop_top E C HM HE (Some t) s u seg below V) as P. destruct (pop_operand E (Some t) s) as [m s1| |].
    2,3: intros F; apply fits_top in F; destruct F as (m & seg' & F & M & _); exact (P _ _ F M).
    destruct P as (seg' & H & M & O & V1). specialize (IH s1 u seg' below V1).
    assert (D : fits C u seg (DVal t :: dv l) <-> fits C u seg' (dv l)).
    { rewrite fits_top. split; [intros (m' & seg2 & F & _ & G); rewrite H in F; injection F as <- <-; exact G|]. intros F. exists m, seg'. auto. }
    destruct (pop_list E l s1) as [found s2| |]; [|rewrite D; exact IH..]. destruct IH as (O2 & F2 & -> & V2). unfold vret.
    split; [eapply opsrel_trans; eassumption|]. split; [apply D, F2|]. cbn [List.length]. rewrite (takes_top _ _ _ _ _ H), (skip_top _ _ _ _ _ H). auto.
Qed.
Lemma push_list_ok l : forall s u seg below, view s u seg below ->
  exists s', vall push_maybe l s = VOk tt s' /\ opsrel s s' /\ view s' u (rev l ++ seg) below.
Proof.
  induction l as [|t l IH]; intros s u seg below W.
  - exists s. split; [reflexivity|]. split; [apply opsrel_refl|exact W].
  - cbn [vall]. unfold vbind. destruct (push_maybe_ok t s u seg below W) as (s1 & -> & R & W1).
    destruct (IH _ _ _ _ W1) as (s2 & -> & R2 & W2). exists s2. split; [reflexivity|]. split; [eapply opsrel_trans; eassumption|].
    cbn [rev]. rewrite <- app_assoc. exact W2.
Qed.
Lemma match_ok l s u seg below : view s u seg below ->
  match match_stack_operands E l s with
  | VOk _ s' => opsrel s s' /\ fits C u seg (dv (rev l)) /\ view s' u (takes (List.length l) seg ++ skipn (List.length l) seg) below
  | _ => ~ fits C u seg (dv (rev l))
  end.
Proof.
  intros V. unfold match_stack_operands, vbind. pose proof (pop_list_ok (rev l) s u seg below V) as P.
  destruct (pop_list E (rev l) s) as [found s1| |]; [|exact P..]. destruct P as (O & F & -> & V1).
  destruct (push_list_ok (rev (takes (List.length (rev l)) seg)) s1 u _ below V1) as (s2 & -> & O2 & V2).
  rewrite rev_involutive, rev_length in V2. split; [eapply opsrel_trans; eassumption|auto].
Qed.
Lemma takes_norm n seg : takes n (takes n seg ++ skipn n seg) = takes n seg.
Proof.
  unfold takes at 1. rewrite firstn_app, app_length, takes_length, Nat.sub_diag. cbn [firstn]. rewrite app_nil_r.
  replace (n - (n + List.length (skipn n seg)))%nat with O by lia. cbn [repeat]. rewrite app_nil_r.
  rewrite <- (takes_length n seg) at 1. apply firstn_all.
Qed.
Definition check_target (n : nat) (d : Z) : V unit :=
  at_label E d (fun tys => vcheck E (List.length tys =? n)%nat "type mismatch: br_table target labels have different number of types" ;; match_stack_operands E tys).
Lemma check_target_ok X n d s u seg below : inst C X s u seg below ->
  match label C d with
  | Some m => if (List.length m =? n)%nat then check_target n d s = match_stack_operands E m s else match check_target n d s with VOk _ _ => False | _ => True end
  | None => match check_target n d s with VOk _ _ => False | _ => True end
  end.
Proof.
  intros In. unfold check_target. match goal with |- context [at_label E d ?k s] => pose proof (at_label_ok E C HE X s u seg below d k In) as P; destruct (label C d) as [m|] eqn:L end; [|exact P].
  rewrite P. unfold vbind, vcheck. destruct (Nat.eqb_spec (List.length m) n) as [Hn|Hn]; [reflexivity|exact I].
Qed.
(** Which labels the values at hand are good for. *)
Lemma targets_ok X n base l : forall s u seg below, inst C X s u seg below -> takes n seg = takes n base -> enough u n base -> enough u n seg ->
  match vall (check_target n) l s with
  | VOk _ s' => Forall (fun d => exists m, label C d = Some m /\ List.length m = n /\ dsubs C (map least (takes n base)) (dv (rev m))) l /\
     exists seg', opsrel s s' /\ inst C X s' u seg' below /\ takes n seg' = takes n base /\ enough u n seg'
  | _ => ~ Forall (fun d => exists m, label C d = Some m /\ List.length m = n /\ dsubs C (map least (takes n base)) (dv (rev m))) l
  end.
Proof.
  induction l as [|d l IH]; intros s u seg below In Ht Eb Es; cbn [vall].
  - split; [constructor|]. exists seg. split; [apply opsrel_refl|auto].
  - unfold vbind. pose proof (check_target_ok X n d s u seg below In) as P. destruct (label C d) as [m|] eqn:L.
    2: { destruct (check_target n d s); [contradiction|..]; intros F; inversion F as [|? ? (m & Hm & _)]; congruence. }
    destruct (Nat.eqb_spec (List.length m) n) as [Hn|Hn].
    2: { destruct (check_target n d s); [contradiction|..]; intros F; inversion F as [|? ? (m' & Hm & Hl & _)]; congruence. }
    rewrite P. clear P. pose proof (match_ok m s u seg below (in_view _ _ _ _ _ _ In)) as P.
    assert (D : fits C u seg (dv (rev m)) <-> dsubs C (map least (takes n base)) (dv (rev m))).
    { rewrite fits_takes by (rewrite map_length, rev_length, Hn; exact Es). rewrite map_length, rev_length, Hn, Ht. reflexivity. }
    destruct (match_stack_operands E m s) as [[] s1| |].
    2,3: intros F; inversion F as [|? ? (m' & Hm & Hl & K)]; rewrite L in Hm; injection Hm as <-; apply P, D, K.
    destruct P as (O & F & V). rewrite Hn in V. pose proof (inst_ops _ _ _ _ _ _ _ _ In O V) as In1.
    assert (Ht1 : takes n (takes n seg ++ skipn n seg) = takes n base) by (rewrite takes_norm; exact Ht).
    assert (Es1 : enough u n (takes n seg ++ skipn n seg)) by (left; rewrite app_length, takes_length; lia).
    specialize (IH s1 u _ below In1 Ht1 Eb Es1).
    destruct (vall (check_target n) l s1) as [[] s2| |].
    + destruct IH as (F2 & seg' & O2 & In2 & Ht2 & Es2). split; [constructor; [|exact F2]|].
      * exists m. split; [exact L|]. split; [exact Hn|]. apply D, F.
      * exists seg'. split; [eapply opsrel_trans; eassumption|auto].
    + intros K. inversion K; subst. contradiction.
    + intros K. inversion K; subst. contradiction.
Qed.
Lemma typ_br_table X t a b : typ C X (Op_BrTable t) a b <-> exists ds l x, targets t = (ds, None) /\
  Forall (fun d => exists m, label C d = Some m /\ dsubs C l (dv (rev m))) (pb_default t :: ds) /\ a = DVal VI32 :: l ++ x.
Proof.
  split.
  - typ_of. rev_eqs. exists ds, (rev l), (rev ts). split; [assumption|]. split; [|reflexivity].
    eapply Forall_impl; [|eassumption]. intros d (m & H & K). exists m. split; [exact H|]. rewrite map_rev. apply -> dsubs_rev. exact K.
  - intros (ds & l & x & H & F & ->). exists []. cbn [rev]. rewrite rev_app_distr, <- app_assoc. apply (ok_br_table C X t ds (rev l)); [exact H|].
    eapply Forall_impl; [|exact F]. intros d (m & L & K). exists m. split; [exact L|]. apply dsubs_rev. rewrite rev_involutive, <- map_rev. exact K.
Qed.
Lemma br_table_step X t s u seg below : inst C X s u seg below -> ok_step X (Op_BrTable t) s u seg below (visit_op E (Op_BrTable t) s).
Proof.
  intros In. cbn [visit_op].
  change (visit_br_table E t s) with ((pop E VI32 ;; at_label E (pb_default t) (fun dts => let '(l, e) := targets t in
    vall (check_target (List.length dts)) l ;;
    vlift (match e with Some e => Err e | None => Ok tt end) ;; pops E dts ;; unreachable)) s).
  destruct (label C (pb_default t)) as [dts|] eqn:L.
  2: { apply none_ok; [|eapply at_label_none; eassumption]. intros a b H. apply typ_br_table in H. destruct H as (ds & l & x & _ & F & _). inversion F as [|? ? (m & H & _)]. congruence. }
  rewrite (at_label_after E C HM HE X s u seg below _ _ _ dts In L). unfold vbind at 1.
  pose proof (popv_inst E C HM HE X s u seg below VI32 In) as P.
  assert (D : forall a, fits C u seg (DVal VI32 :: a) <-> fits C u seg [DVal VI32] /\ fits C u (skipn 1 seg) a) by (intros a; apply (fits_app C u [DVal VI32])).
  destruct (pop E VI32 s) as [[] s1| |].
  2,3: intros a b H F; apply typ_br_table in H; destruct H as (ds & l & x & _ & _ & ->); apply D in F; tauto.
  destruct P as (F0 & O0 & In1). set (seg1 := skipn 1 seg) in *. set (n := List.length dts).
  destruct (targets t) as [ds e] eqn:Ht.
  (* whatever type the operator has, its labels are good for the values at hand *)
  assert (G : forall a b, typ C X (Op_BrTable t) a b -> fits C u seg a -> enough u n seg1 /\ e = None /\
    Forall (fun d => exists m, label C d = Some m /\ List.length m = n /\ dsubs C (map least (takes n seg1)) (dv (rev m))) (pb_default t :: ds)).
  { intros a b H F. apply typ_br_table in H. rewrite Ht in H. destruct H as (ds' & l & x & Hd & K & ->). injection Hd as <- ->.
    apply D in F. destruct F as [_ F]. apply fits_app in F. destruct F as [F _].
    assert (Ln : List.length l = n). { inversion K as [|? ? (m & H1 & H2)]. rewrite L in H1. injection H1 as <-. apply Forall2_len in H2. rewrite map_length, rev_length in H2. exact H2. }
    pose proof (fits_enough u l seg1 F) as En. rewrite Ln in En. split; [exact En|]. split; [reflexivity|].
    eapply Forall_impl; [|exact K]. intros d (m & H1 & H2). exists m. split; [exact H1|].
    pose proof (Forall2_len _ _ _ H2) as Lm. rewrite map_length, rev_length, Ln in Lm. split; [auto|]. rewrite <- Ln in *. eapply dsubs_trans; [exact HM| |exact H2].
    apply (fits_takes u); assumption. }
  destruct (Nat.le_gt_cases n (List.length seg1)) as [Hen|Hen]; [|destruct u].
  3: { (* too few values *)
    assert (Q : stuck C (typ C X (Op_BrTable t)) false seg) by (intros a b H F; destruct (G a b H F) as ([K|K] & _); [lia|discriminate]).
    match goal with |- TypeInst.ok_step _ _ _ _ _ _ _ ?r => destruct r as [[] s2| |] eqn:Er end; [|exact Q..]. exfalso.
    revert Er. unfold vbind at 1. destruct ds as [|d ds]; cbn [vall].
    - unfold vret at 1, vbind. destruct (vlift _ s1) as [[] s3| |] eqn:El; [|discriminate..]. assert (s3 = s1) by (destruct e; cbn in El; congruence). subst s3.
      pose proof (pops_ok E C HM (eo_res _ _ HE) dts s1 false seg1 below (in_view _ _ _ _ _ _ In1)) as P. destruct (pops E dts s1); [|discriminate..].
      destruct P as (_ & P & _). apply fits_enough in P. rewrite map_length, rev_length in P. destruct P; [fold n in H; lia|discriminate].
    - unfold vbind at 1. pose proof (check_target_ok X n d s1 false seg1 below In1) as P. destruct (label C d) as [m|].
      2: { destruct (check_target _ d s1); [contradiction|discriminate..]. }
      destruct (Nat.eqb_spec (List.length m) n) as [Hn|Hn]; [|destruct (check_target _ d s1); [contradiction|discriminate..]]. rewrite P.
      pose proof (match_ok m s1 false seg1 below (in_view _ _ _ _ _ _ In1)) as Q'. destruct (match_stack_operands E m s1); [|discriminate..].
      destruct Q' as (_ & Q' & _). apply fits_enough in Q'. rewrite map_length, rev_length in Q'. destruct Q'; [lia|discriminate]. }
  1: assert (En : enough u n seg1) by (left; exact Hen). 2: assert (En : enough true n seg1) by (right; reflexivity).
  all: unfold vbind at 1; match goal with |- context [unreachable ?x] => idtac | _ => idtac end.
  all: match goal with |- TypeInst.ok_step _ _ _ _ ?v _ _ _ =>
    pose proof (targets_ok X n seg1 ds s1 v seg1 below In1 eq_refl En En) as P;
    destruct (vall (check_target n) ds s1) as [[] s2| |];
    [|intros a b H F; destruct (G a b H F) as (_ & _ & K); inversion K; contradiction..];
    destruct P as (Fd & seg2 & O2 & In2 & Ht2 & Es2);
    (destruct e as [e|]; [intros a b H F; destruct (G a b H F) as (_ & K & _); discriminate|]);
    unfold vbind at 1; cbn [vlift];
    pose proof (pops_ok E C HM (eo_res _ _ HE) dts s2 v seg2 below (in_view _ _ _ _ _ _ In2)) as P;
    assert (Dd : fits C v seg2 (dv (rev dts)) <-> dsubs C (map least (takes n seg1)) (dv (rev dts)))
      by (rewrite fits_takes by (rewrite map_length, rev_length; exact Es2); rewrite map_length, rev_length; fold n; rewrite Ht2; reflexivity);
    unfold vbind; destruct (pops E dts s2) as [[] s3| |];
    [|intros a b H F; destruct (G a b H F) as (_ & _ & K); inversion K as [|? ? (m & H1 & _ & H2)]; rewrite L in H1; injection H1 as <-; apply P, Dd, H2..];
    destruct P as (O3 & F3 & V3); pose proof (inst_ops _ _ _ _ _ _ _ _ In2 O3 V3) as In3;
    destruct (unreachable_ok C _ _ _ _ _ In3) as (s4 & -> & In4 & K4);
    cbn [TypeInst.ok_step sets app]; exists true, []; split; [exact In4|]; split;
    [eapply kept_trans; [eapply kept_ops; [exact In|]|exact K4]; eapply opsrel_trans; [exact O0|]; eapply opsrel_trans; [exact O2|exact O3]|];
    apply (stepped_poly C HM _ v seg (DVal VI32 :: map least (takes n seg1)));
    [intros x b; apply typ_br_table; exists ds, (map least (takes n seg1)), x; split; [exact Ht|]; split; [|reflexivity];
     constructor; [exists dts; split; [exact L|apply Dd, F3]|eapply Forall_impl; [|exact Fd]; intros d (m & H1 & _ & H2); eauto]
    |apply D; split; [exact F0|]; apply fits_takes; rewrite map_length, takes_length; [exact En|apply dsubs_refl, HM]]
  end.
Qed.
End Ops.
