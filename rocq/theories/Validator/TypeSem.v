(** The declarative stack types an operand stack of the validator stands for, and what popping and pushing do to them. *)
From Verif.Base Require Import Prelude.
From Verif.Locals Require Import Model.
From Verif.Types Require Import RefModel CodecModel CanonModel.
From Verif.Instr Require Import ImmModel Ops.
From Verif.Validator Require Import State Checks Visit Undo Top Sig TypeSpec TypeBase.

Section Sem.
Variable C : ctx.
Hypothesis HM : res_ok (cx_mod C).

(** Stacks are listed with the top first here. *)
Definition least (m : maybe val) : dt :=
  match m with Bottom => DBot | UnknownRef None => DRefBot | UnknownRef (Some a) => DUnk a | Known v => DVal v end.
Definition mt (m : maybe val) (t : dt) : Prop := dsub C (least m) t.
Fixpoint sem (u : bool) (seg : list (maybe val)) (ts : list dt) : Prop :=
  match seg, ts with
  | [], [] => True
  | [], _ :: _ => u = true
  | m :: seg, t :: ts => mt m t /\ sem u seg ts
  | _ :: _, [] => False
  end.
Fixpoint fits (u : bool) (seg : list (maybe val)) (ts : list dt) {struct ts} : Prop :=
  match ts with
  | [] => True
  | t :: ts => match seg with [] => u = true | m :: seg => mt m t /\ fits u seg ts end
  end.
Lemma mt_up m t t' : mt m t -> dsub C t t' -> mt m t'.
Proof. apply dsub_trans, HM. Qed.
Lemma sem_up u seg : forall ts ts', sem u seg ts -> dsubs C ts ts' -> sem u seg ts'.
Proof.
  induction seg as [|m seg IH]; intros ts ts' H K; destruct K as [|t t' ts ts' K K']; cbn [sem] in *; auto.
  destruct H as [H H']. split; [eapply mt_up; eassumption|eapply IH; eassumption].
Qed.
Lemma fits_up u seg : forall ts ts', fits u seg ts -> dsubs C ts ts' -> fits u seg ts'.
Proof.
  intros ts ts' H K. revert seg H. induction K as [|t t' ts ts' K K' IH]; intros [|m seg] H; cbn [fits] in *; auto.
  destruct H as [H H']. split; [eapply mt_up; eassumption|eapply IH; eassumption].
Qed.
Lemma skipn_nil {A} n : skipn n (@nil A) = []. Proof. destruct n; reflexivity. Qed.
Lemma sem_nil_true ts : sem true [] ts. Proof. destruct ts; cbn; auto. Qed.
Lemma sem_app u a : forall seg f, sem u seg (a ++ f) <-> fits u seg a /\ sem u (skipn (List.length a) seg) f.
Proof.
  induction a as [|t a IH]; intros seg f; cbn [app List.length skipn].
  - destruct seg; cbn [fits]; tauto.
  - destruct seg as [|m seg]; cbn [sem fits].
    + split; [intros ->; split; [reflexivity|apply sem_nil_true]|tauto].
    + rewrite IH. tauto.
Qed.
Lemma fits_app u a : forall seg b, fits u seg (a ++ b) <-> fits u seg a /\ fits u (skipn (List.length a) seg) b.
Proof.
  induction a as [|t a IH]; intros seg f; cbn [app List.length skipn].
  - destruct seg; cbn [fits]; tauto.
  - destruct seg as [|m seg]; cbn [fits].
    + split; [intros ->; split; [reflexivity|destruct f; cbn; auto]|tauto].
    + rewrite IH. tauto.
Qed.
Lemma sem_push u ms : forall seg ts, sem u (ms ++ seg) ts <-> exists b f, ts = b ++ f /\ Forall2 mt ms b /\ sem u seg f.
Proof.
  induction ms as [|m ms IH]; intros seg ts; cbn [app].
  - split; [intros H; exists [], ts; auto|]. intros (b & f & -> & H & K). inversion H; subst. exact K.
  - destruct ts as [|t ts]; cbn [sem].
    + split; [tauto|]. intros (b & f & H & K & _). inversion K; subst. discriminate.
    + rewrite IH. split.
      * intros (H & b & f & -> & K & L). exists (t :: b), f. auto.
      * intros (b & f & H & K & L). inversion K; subst. injection H as -> ->. split; [assumption|]. eauto.
Qed.
Lemma mt_known vs : forall b, Forall2 mt (map Known vs) b <-> dsubs C (dv vs) b.
Proof.
  unfold dsubs. induction vs as [|v vs IH]; intros b; split; intros H; inversion H; subst; constructor; auto; apply IH; assumption.
Qed.
(** Some stack type is meant by every stack. *)
Lemma mt_some m : exists t, mt m t.
Proof. exists (least m). apply dsub_refl, HM. Qed.
Lemma sem_some u seg : exists ts, sem u seg ts.
Proof. induction seg as [|m seg (ts & IH)]; [exists []; exact I|]. destruct (mt_some m) as [t Ht]. exists (t :: ts). split; assumption. Qed.

(** An instruction of type [a -> b], with its frame. *)
Definition fixed (a b : list dt) (ts us : list dt) : Prop := exists f, dsubs C ts (a ++ f) /\ dsubs C (b ++ f) us.
Lemma sem_fits u seg ts a f : sem u seg ts -> dsubs C ts (a ++ f) -> fits u seg a /\ sem u (skipn (List.length a) seg) f.
Proof. intros H K. apply sem_app. eapply sem_up; eassumption. Qed.
Lemma step_fixed u seg a vs : fits u seg a -> forall us,
  sem u (map Known vs ++ skipn (List.length a) seg) us <-> exists ts, sem u seg ts /\ fixed a (dv vs) ts us.
Proof.
  intros H us. rewrite sem_push. split.
  - intros (b & f & -> & K & L). apply mt_known in K. exists (a ++ f). split; [apply sem_app; auto|].
    exists f. split; [apply dsubs_refl, HM|apply dsubs_app; [exact K|apply dsubs_refl, HM]].
  - intros (ts & K & f & T & U). destruct (sem_fits _ _ _ _ _ K T) as [_ L].
    apply Forall2_app_inv_l in U. destruct U as (b & g & U1 & U2 & ->).
    exists b, g. split; [reflexivity|]. split; [apply mt_known; exact U1|eapply sem_up; eassumption].
Qed.
Lemma step_stuck u seg a b ts us : ~ fits u seg a -> sem u seg ts -> ~ fixed a b ts us.
Proof. intros H K (f & T & _). apply H. eapply sem_fits; eassumption. Qed.
End Sem.

(** * The validator's stack within a frame *)
Section Ops.
Variable E : env.
Variable C : ctx.
Hypothesis HM : res_ok (cx_mod C).
Hypothesis HE : e_res E = cx_mod C.

(** The operands of the innermost frame, and those below. *)
Record view (s : vst) (u : bool) (seg below : list (maybe val)) : Prop := mkView
  { v_ops : vs_operands s = seg ++ below;
    v_head : exists fr rest, vs_control s = fr :: rest /\ fr_height fr = List.length below /\ fr_unreachable fr = u }.
Lemma view_ops s s' u seg seg' below : view s u seg below -> opsrel s s' -> vs_operands s' = seg' ++ below -> view s' u seg' below.
Proof. intros [V1 V2] R K. split; [exact K|]. rewrite (or_control _ _ R). exact V2. Qed.

Lemma check_operand_ok m t s : match check_operand E m (Some t) s with
  | VOk _ s' => s' = s /\ mt C m (DVal t) | _ => ~ mt C m (DVal t) end.
Proof.
  unfold check_operand, vret, vfail, vcheck. rewrite HE. destruct m as [|[a|]|v]; cbn [mt least]; unfold mt; cbn [least].
  - cbn. auto.
  - destruct t as [| | | | |r]; try solve [intros [sh H]; cbn [dsub] in H; destruct (sub_ref C HM _ _ H); discriminate].
    rewrite (ro_is_shared _ HM). destruct (r_is_subtype _ _ _) eqn:H.
    + unfold vret. split; [reflexivity|]. eexists. exact H.
    + intros [sh K]. cbn [dsub] in K. destruct (sub_cases C HM _ _ K) as [(x & y & X & Y & N & S)|[_ X]]; [|discriminate].
      injection X as <-. injection Y as <-. pose proof (ro_shared_sub _ HM _ _ S) as SS. cbn [abs rt_heap] in SS.
      rewrite (ro_shared_abs _ HM) in SS. subst sh. unfold sub in K. congruence.
  - destruct t as [| | | | |r]; cbn [dsub]; auto.
  - change (dsub C (DVal v) (DVal t)) with (sub C v t = true). unfold sub.
    destruct t as [| | | | |r]; destruct (r_is_subtype _ _ _); unfold vret; auto; congruence.
Qed.
Lemma pop_any s e : pop_operand E e s = slow_pop_operand E e None s.
Proof. apply fast_path. intros v. rewrite HE. apply (sub_refl C HM). Qed.
Definition wants (e : option val) (m : maybe val) : Prop := match e with Some t => mt C m (DVal t) | None => True end.
Lemma pop_ok e s u seg below : view s u seg below ->
  match pop_operand E e s with
  | VOk m s' => opsrel s s' /\ wants e m /\
    match seg with
    | m' :: seg' => m = m' /\ view s' u seg' below
    | [] => u = true /\ m = Bottom /\ view s' u [] below
    end
  | _ => match seg with m :: _ => ~ wants e m | [] => u = false end
  end.
Proof.
  intros W. pose proof (opnd_pop_operand E e s) as R. rewrite pop_any in *. destruct W as [Ho (fr & rest & Hc & Hh & Hu)].
  assert (K : forall m s1, match (check_operand E m e ;; vret m) s1 with VOk x s' => x = m /\ s' = s1 /\ wants e m | _ => ~ wants e m end).
  { intros m s1. unfold vbind. destruct e as [t|]; [|cbn; auto].
    pose proof (check_operand_ok m t s1) as P. destruct (check_operand E m (Some t) s1); cbn; tauto. }
  unfold slow_pop_operand in *. rewrite Hc in *. rewrite Ho, Hu, Hh, app_length in *.
  destruct seg as [|m seg]; cbn [app List.length Nat.add] in *.
  - rewrite Nat.eqb_refl in *. cbn [andb] in *. destruct u; cbn [negb] in *; [|reflexivity].
    specialize (K Bottom (record_any_pop s)). destruct ((check_operand E Bottom e ;; vret Bottom) (record_any_pop s)) as [x s'| |].
    + destruct K as (-> & -> & K). split; [exact R|]. split; [exact K|]. split; [reflexivity|]. split; [reflexivity|].
      split; [exact Ho|]. exists fr, rest. auto.
    + destruct e; cbn in K; tauto.
    + destruct e; cbn in K; tauto.
  - destruct (Nat.eqb_spec (S (List.length seg + List.length below)) (List.length below)); [lia|]. cbn [andb] in *.
    specialize (K m (record_pop m (with_operands s (seg ++ below)))).
    destruct ((check_operand E m e ;; vret m) (record_pop m (with_operands s (seg ++ below)))) as [x s'| |]; [|exact K|exact K].
    destruct K as (-> & -> & K). split; [exact R|]. split; [exact K|]. split; [reflexivity|]. split; [reflexivity|]. exists fr, rest. auto.
Qed.
Lemma popv_ok t s u seg below : view s u seg below ->
  match pop E t s with
  | VOk _ s' => opsrel s s' /\ fits C u seg [DVal t] /\ view s' u (skipn 1 seg) below
  | _ => ~ fits C u seg [DVal t]
  end.
Proof.
  intros W. pose proof (pop_ok (Some t) s u seg below W) as P. unfold pop, vbind, vret.
  destruct (pop_operand E (Some t) s) as [m s'| |]; destruct seg as [|m' seg]; cbn [fits skipn wants] in *.
  - destruct P as (R & _ & -> & _ & P). auto.
  - destruct P as (R & P & -> & P'). auto.
  - rewrite P. discriminate.
  - tauto.
  - rewrite P. discriminate.
  - tauto.
Qed.
Lemma skipn_add {A} a b (l : list A) : skipn b (skipn a l) = skipn (a + b) l.
Proof. revert l. induction a as [|a IH]; intros l; [reflexivity|]. destruct l; cbn [skipn Nat.add]; [apply skipn_nil|apply IH]. Qed.
Lemma vall_pop_ok l : forall s u seg below, view s u seg below ->
  match vall (pop E) l s with
  | VOk _ s' => opsrel s s' /\ fits C u seg (dv l) /\ view s' u (skipn (List.length l) seg) below
  | _ => ~ fits C u seg (dv l)
  end.
Proof.
  induction l as [|t l IH]; intros s u seg below W.
  - cbn. split; [apply opsrel_refl|]. split; [destruct seg; exact I|exact W].
  - cbn [vall]. unfold vbind. pose proof (popv_ok t s u seg below W) as P.
    pose proof (fits_app C u [DVal t] seg (dv l)) as F. cbn [app] in F. change (DVal t :: dv l) with (dv (t :: l)) in F.
    destruct (pop E t s) as [x s'| |]; [|tauto|tauto].
    destruct P as (R & P & W'). specialize (IH _ _ _ _ W'). destruct (vall (pop E) l s') as [y s2| |]; [|tauto|tauto].
    destruct IH as (R' & P' & W2). split; [eapply opsrel_trans; eassumption|]. split; [tauto|].
    cbn [List.length]. rewrite skipn_add in W2. exact W2.
Qed.
Lemma pops_ok l s u seg below : view s u seg below ->
  match pops E l s with
  | VOk _ s' => opsrel s s' /\ fits C u seg (dv (rev l)) /\ view s' u (skipn (List.length l) seg) below
  | _ => ~ fits C u seg (dv (rev l))
  end.
Proof. intros W. unfold pops. rewrite <- (rev_length l). apply vall_pop_ok, W. Qed.
Lemma push_maybe_ok m s u seg below : view s u seg below ->
  exists s', push_maybe m s = VOk tt s' /\ opsrel s s' /\ view s' u (m :: seg) below.
Proof.
  intros W. pose proof (opnd_push_maybe m s) as R. unfold push_maybe in *. eexists. split; [reflexivity|]. split; [exact R|].
  eapply view_ops; [exact W|exact R|]. cbn. rewrite (v_ops _ _ _ _ W). reflexivity.
Qed.
Lemma pushes_ok l : forall s u seg below, view s u seg below ->
  exists s', pushes l s = VOk tt s' /\ opsrel s s' /\ view s' u (map Known (rev l) ++ seg) below.
Proof.
  unfold pushes. induction l as [|t l IH]; intros s u seg below W.
  - exists s. split; [reflexivity|]. split; [apply opsrel_refl|exact W].
  - cbn [vall]. unfold vbind, push_operand at 1. destruct (push_maybe_ok (Known t) s u seg below W) as (s1 & -> & R & W1).
    destruct (IH _ _ _ _ W1) as (s2 & -> & R2 & W2). exists s2. split; [reflexivity|]. split; [eapply opsrel_trans; eassumption|].
    cbn [rev]. rewrite map_app, <- app_assoc. exact W2.
Qed.
End Ops.
