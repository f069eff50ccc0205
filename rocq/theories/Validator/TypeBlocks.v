(** Entering and leaving blocks. *)
From Verif.Base Require Import Prelude.
From Verif.Locals Require Import Model Proofs.
From Verif.Types Require Import RefModel CodecModel CanonModel.
From Verif.Instr Require Import ImmModel Ops.
From Verif.Validator Require Import State Checks Visit Undo Top Sig TypeSpec TypeBase TypeSem TypeLook TypeSig TypeSigs TypeInst TypeOps TypeOps2 TypeOps3 TypeRefs.

(** ** Types of instructions of any kind *)
Section Types.
Variable C : ctx.
Hypothesis HM : res_ok (cx_mod C).
Definition typi (X : list Z) (i : instr) (a b : list dt) : Prop := exists xs, i_ok C X i (rev a) xs (rev b).
Lemma rone_typi X i ts us : rone C X i ts us <-> exists a b f, typi X i a b /\ dsubs C ts (a ++ f) /\ dsubs C (b ++ f) us.
Proof.
  unfold rone, one, typi. split.
  - intros (f & a & xs & b & H & T & U). exists (rev a), (rev b), (rev f). rewrite !rev_involutive. split; [eauto|].
    apply dsubs_rev in T. apply dsubs_rev in U. rewrite rev_app_distr, rev_involutive in *. auto.
  - intros (a & b & f & (xs & H) & T & U). exists (rev f), (rev a), xs, (rev b). split; [exact H|].
    rewrite <- !rev_app_distr, <- !dsubs_rev. auto.
Qed.
Lemma stepped_ronei X i u seg u' seg' : stepped C (typi X i) u seg u' seg' ->
  forall us, sem C u' seg' us <-> exists ts, sem C u seg ts /\ rone C X i ts us.
Proof.
  intros H us. rewrite (H us). split.
  - intros (a & b & f & P & F & G & U). exists (a ++ f). split; [apply sem_app; auto|]. apply rone_typi. exists a, b, f.
    split; [exact P|]. split; [apply dsubs_refl, HM|exact U].
  - intros (ts & K & R). apply rone_typi in R. destruct R as (a & b & f & P & T & U). exists a, b, f. split; [exact P|].
    pose proof (sem_fits C HM _ _ _ _ _ K T) as [F G]. auto.
Qed.
Lemma stuck_ronei X i u seg : stuck C (typi X i) u seg -> forall ts us, sem C u seg ts -> ~ rone C X i ts us.
Proof.
  intros H ts us K R. apply rone_typi in R. destruct R as (a & b & f & P & T & U). eapply H; [exact P|]. eapply sem_fits; eassumption.
Qed.
(** Sequences, with the top of the stack first. *)
Definition rsteps (X : list Z) (es : list instr) (ts us : list dt) : Prop := steps C X es (rev ts) (rev us).
Definition body_ok (X : list Z) (es : list instr) (ts us : list val) : Prop := exists xs, es_ok C X es (dv ts) xs (dv us).
Lemma body_steps X es ts us : body_ok X es ts us <-> rsteps X es (dv (rev ts)) (dv (rev us)).
Proof.
  unfold body_ok, rsteps. rewrite !map_rev, !rev_involutive. split.
  - intros (xs & H). apply (ok_steps C HM) in H. tauto.
  - intros H. exists (sets_es es). apply steps_ok; assumption.
Qed.
Lemma sem_known u ts us : sem C u (map Known ts) us -> u = false -> dsubs C (dv ts) us.
Proof.
  intros H ->. rewrite <- (app_nil_r (map Known ts)) in H. apply sem_push in H. destruct H as (b & f & -> & K & L).
  destruct f; [|discriminate]. rewrite app_nil_r. apply mt_known. exact K.
Qed.
Lemma known_sem u ts : sem C u (map Known ts) (dv ts).
Proof.
  rewrite <- (app_nil_r (map Known ts)). apply sem_push. exists (dv ts), []. rewrite app_nil_r. split; [reflexivity|]. split; [|exact I].
  apply mt_known, dsubs_refl, HM.
Qed.
(** What the state at the end of a body tells of its type. *)
Lemma body_sem X es ts us u' seg' :
  (forall vs, sem C u' seg' vs <-> exists ts', sem C false (map Known (rev ts)) ts' /\ rsteps X es ts' vs) ->
  (sem C u' seg' (dv (rev us)) <-> body_ok X es ts us).
Proof.
  intros H. rewrite H, body_steps. split.
  - intros (ts' & K & R). apply sem_known in K; [|reflexivity]. unfold rsteps in *. eapply steps_sub; [exact HM|exact R| |apply dsubs_refl, HM]. apply (proj1 (dsubs_rev C _ _)), K.
  - intros R. exists (dv (rev ts)). split; [apply known_sem|exact R].
Qed.
Lemma body_stuck X es ts us :
  (forall ts' vs, sem C false (map Known (rev ts)) ts' -> ~ rsteps X es ts' vs) -> ~ body_ok X es ts us.
Proof. intros H K. apply body_steps in K. exact (H _ _ (known_sem false (rev ts)) K). Qed.
End Types.

Section Blocks.
Variable E : env.
Variable C : ctx.
Hypothesis HM : res_ok (cx_mod C).
Hypothesis HE : envok E C.

(** ** Block types *)
Lemma look_block b : exists o, look C (check_block_type E b) o /\
  match o with Some bb => exists ts us, block_type C b = Some (ts, us) /\ bparams C bb = Some ts /\ bresults C bb = Some us | None => block_type C b = None end.
Proof.
  destruct b as [|v|i]; cbn [check_block_type block_type].
  - exists (Some BEmpty). split; [apply look_ret|]. exists [], []. auto.
  - exists (match value C v with Some v => Some (BType v) | None => None end). split.
    + assert (K : look C (let! v := (let! t := vunwrap (of_val v) in check_value_type E t) in vret (BType v)) (match value C v with Some v => Some (BType v) | None => None end)).
      { eapply look_bind; [apply look_value; assumption|intros; apply look_ret]. }
      intros s Hs. specialize (K s Hs). unfold vbind in *. destruct (vunwrap (of_val v) s) as [w s'| |]; exact K.
    + destruct (value C v) as [w|]; [|reflexivity]. exists [], [w]. auto.
  - exists (match sig_func C i with Some _ => Some (BFunc i) | None => None end). split.
    + eapply look_eq; [eapply look_bind; [apply look_require; [assumption|discriminate]|intros; eapply look_bind; [apply look_func; assumption|intros; apply look_ret]]|].
      reflexivity.
    + cbn [bparams bresults]. destruct (sig_func C i) as [f|] eqn:Hf; [|reflexivity]. exists (fn_params f), (fn_results f). cbn [bparams bresults]. rewrite Hf. auto.
Qed.

(** ** Entering *)
Record entered (s s' : vst) (k : frame_kind) (b : block) : Prop := mkEntered
  { en_control : vs_control s' = mkFrame k b (List.length (vs_operands s)) false (inits_height (vs_inits s)) :: vs_control s;
    en_inits : vs_inits s' = vs_inits s }.
Lemma push_ctrl_ok X s u seg below k b ts l : inst C X s u seg below -> bparams C b = Some ts -> flabel C b k = Some l ->
  exists s', push_ctrl E k b s = VOk tt s' /\ inst (under C l) X s' false (map Known (rev ts)) (seg ++ below) /\ entered s s' k b.
Proof.
  intros [[V1 (fr & rest & V2 & V3 & V4)] L R S Lo W Ii] Hp Hl. unfold push_ctrl, vbind, push_bare_ctrl.
  match goal with |- context [params E b ?t] => set (s1 := t) end.
  assert (A : vs_operands s1 = vs_operands s /\ vs_locals s1 = vs_locals s /\ vs_inits s1 = vs_inits s /\ vs_shared s1 = vs_shared s /\
    vs_control s1 = mkFrame k b (List.length (vs_operands s)) false (inits_height (vs_inits s)) :: vs_control s).
  { unfold s1, log_map. cbn. destruct (vs_log s); cbn; auto. }
  destruct A as (A1 & A2 & A3 & A4 & A5). clearbody s1.
  pose proof (look_params E C HE b s1) as P. unfold inv in P. rewrite A4 in P. specialize (P S).
  destruct (params E b s1) as [ts' s'| |]; [|congruence..]. destruct P as [-> P]. rewrite Hp in P. injection P as <-.
  assert (Vw : view s1 false [] (seg ++ below)).
  { split; [rewrite A1, V1; reflexivity|]. rewrite A5. eexists _, _. split; [reflexivity|]. cbn. rewrite V1. auto. }
  assert (In1 : inst (under C l) X s1 false [] (seg ++ below)).
  { split; rewrite ?A2, ?A3, ?A4, ?A5; auto.
    - cbn [under cx_labels]. constructor; [exact Hl|exact L].
    - destruct R as (outer & f & R1 & R2). eexists (_ :: outer), f. rewrite R1. split; [reflexivity|exact R2]. }
  destruct (pushes_ok ts s1 false [] (seg ++ below) Vw) as (s2 & -> & O & V'). rewrite app_nil_r in V'.
  exists s2. split; [reflexivity|]. split; [eapply inst_ops; eassumption|]. split; [rewrite (or_control _ _ O); exact A5|rewrite (or_inits _ _ O); exact A3].
Qed.

(** ** Leaving *)
Lemma sem_all u seg a : sem C u seg a <-> fits C u seg a /\ skipn (List.length a) seg = [].
Proof.
  rewrite <- (app_nil_r a) at 1. rewrite sem_app. split; intros [H K]; (split; [exact H|]).
  - destruct (skipn (List.length a) seg); [reflexivity|contradiction].
  - rewrite K. exact I.
Qed.
Lemma pop_ctrl_ok s u seg below fr rest us is und : view s u seg below -> inv C s -> vs_control s = fr :: rest ->
  bresults C (fr_block fr) = Some us -> inits_pop (vs_inits s) (fr_init_height fr) = Some (is, und) ->
  match pop_ctrl E s with
  | VOk fr' s' => sem C u seg (dv (rev us)) /\ fr' = fr /\ vs_operands s' = below /\ vs_control s' = rest /\ vs_inits s' = is /\
      vs_locals s' = vs_locals s /\ vs_shared s' = vs_shared s
  | _ => ~ sem C u seg (dv (rev us))
  end.
Proof.
  intros Vw Hs Hc Hr Hi. unfold pop_ctrl. unfold vbind, vget at 1. rewrite Hc. pose proof (look_results E C HE (fr_block fr) s Hs) as P.
  destruct (results E (fr_block fr) s) as [us' s1| |]; [|congruence..]. destruct P as [-> P]. rewrite Hr in P. injection P as <-.
  pose proof (pops_ok E C HM (eo_res _ _ HE) us s u seg below Vw) as P. pose proof (sem_all u seg (dv (rev us))) as Sa. rewrite map_length, rev_length in Sa.
  destruct (pops E us s) as [[] s1| |]; [|intros F; apply Sa in F; exact (P (proj1 F))..]. destruct P as (O & F & V1). unfold vget, vcheck.
  rewrite (v_ops _ _ _ _ V1), app_length. destruct (v_head _ _ _ _ Vw) as (fr0 & rest0 & C1 & C2 & C3). rewrite Hc in C1. injection C1 as <- <-. rewrite C2.
  destruct (Nat.eqb_spec (List.length (skipn (List.length us) seg) + List.length below) (List.length below)) as [Hn|Hn].
  - assert (Z : skipn (List.length us) seg = []) by (destruct (skipn (List.length us) seg); [reflexivity|cbn in Hn; lia]).
    unfold vret, drop_ctrl. rewrite (or_control _ _ O), Hc, (or_inits _ _ O), Hi. split; [apply Sa; auto|]. split; [reflexivity|].
    unfold log_map. destruct (vs_log (with_inits (with_control s1 rest) is)); cbn; rewrite (v_ops _ _ _ _ V1), Z, (or_locals _ _ O), (or_shared _ _ O); auto 8.
  - cbn. intros Z. apply Sa in Z. destruct Z as [_ Z]. rewrite Z in Hn. cbn in Hn. lia.
Qed.
(** The state is the one before entering. *)
Lemma leave_ok X X2 s s1 s2 k b u seg below u2 seg2 us l : inst C X s u seg below -> entered s s1 k b -> kept s1 s2 ->
  inst (under C l) X2 s2 u2 seg2 (seg ++ below) -> bresults C b = Some us ->
  match pop_ctrl E s2 with
  | VOk fr s3 => sem C u2 seg2 (dv (rev us)) /\ fr_kind fr = k /\ fr_block fr = b /\ inst C X s3 u seg below /\
      vs_control s3 = vs_control s /\ vs_inits s3 = vs_inits s
  | _ => ~ sem C u2 seg2 (dv (rev us))
  end.
Proof.
  intros In [En1 En2] [(f & g & rest & K1 & K2 & (K3 & K4 & K5 & K6)) Ki] In2 Hb.
  rewrite En1 in K1. injection K1 as <- <-. cbn [fr_kind fr_block fr_height fr_init_height] in *.
  destruct (Ki (vs_inits s)) as [und Hu]; [rewrite En2; apply ext_refl|]. rewrite <- K6 in Hu.
  pose proof (pop_ctrl_ok s2 u2 seg2 (seg ++ below) g (vs_control s) us (vs_inits s) und (in_view _ _ _ _ _ _ In2) (in_shared _ _ _ _ _ _ In2) K2) as P.
  rewrite K4 in P. specialize (P Hb Hu). destruct (pop_ctrl E s2) as [fr s3| |]; [|exact P..].
  destruct P as (P1 & -> & P2 & P3 & P4 & P5 & P6). split; [exact P1|]. split; [exact K3|]. split; [exact K4|]. split; [|auto].
  destruct In as [[V1 V2] L R S Lo W Ii], In2 as [_ _ _ S2 Lo2 _ _]. split; rewrite ?P3, ?P4, ?P5, ?P6; auto.
  split; [exact P2|]. rewrite P3. exact V2.
Qed.
Lemma kept_back X s s' u seg below : inst C X s u seg below -> vs_control s' = vs_control s -> vs_inits s' = vs_inits s -> kept s s'.
Proof.
  intros In Hc Hi. destruct (v_head _ _ _ _ (in_view _ _ _ _ _ _ In)) as (fr & rest & C1 & _).
  split; [exists fr, fr, rest; rewrite Hc; auto using same_frame_refl|rewrite Hi; auto].
Qed.
(** After the frame is gone its results are pushed. *)
Lemma push_results X s s' u seg below b us : inst C X s u seg below -> inst C X s' u seg below -> vs_control s' = vs_control s -> vs_inits s' = vs_inits s ->
  bresults C b = Some us ->
  exists s2, (let! ts := results E b in pushes ts ;; let! c := vget vs_control in match c with [] => if e_at E =? 0 then vpanic else vret tt | _ => vret tt end) s' = VOk tt s2 /\
    inst C X s2 u (map Known (rev us) ++ seg) below /\ kept s s2.
Proof.
  intros In In' Hc Hi Hb. unfold vbind. pose proof (look_results E C HE b s' (inst_shared _ _ _ _ _ _ In')) as P.
  destruct (results E b s') as [us' s1| |]; [|congruence..]. destruct P as [-> P]. rewrite Hb in P. injection P as <-.
  destruct (pushes_ok us s' u seg below (in_view _ _ _ _ _ _ In')) as (s2 & -> & O & V'). unfold vget.
  exists s2. split; [rewrite (or_control _ _ O), Hc; destruct (v_head _ _ _ _ (in_view _ _ _ _ _ _ In)) as (fr & rest & -> & _); reflexivity|].
  split; [eapply inst_ops; eassumption|]. eapply kept_trans; [eapply kept_back; eassumption|eapply kept_ops; eassumption].
Qed.

(** ** Handlers *)
Lemma match_operand_ok a e s u seg below : view s u seg below ->
  match match_operand E a e s with VOk _ s' => opsrel s s' /\ view s' u seg below /\ sub C a e = true | _ => sub C a e <> true end.
Proof.
  intros V. unfold match_operand, vbind. destruct (push_ok a s u seg below V) as (s1 & -> & O1 & V1). unfold pop, vbind.
  pose proof (pop_top E C HM HE (Some e) s1 u _ below V1) as P. destruct (pop_operand E (Some e) s1) as [m s2| |].
  - destruct P as (seg' & H & W & O2 & V2). cbn [top] in H. injection H as <- <-. unfold vret. split; [eapply opsrel_trans; eassumption|]. split; [exact V2|exact W].
  - intros H. exact (P _ _ eq_refl H).
  - intros H. exact (P _ _ eq_refl H).
Qed.
Lemma match_operands_ok ps : forall ts s u seg below, List.length ps = List.length ts -> view s u seg below ->
  match match_operands E ts ps s with VOk _ s' => opsrel s s' /\ view s' u seg below /\ dsubs C (dv ps) (dv ts) | _ => ~ dsubs C (dv ps) (dv ts) end.
Proof.
  induction ps as [|a ps IH]; intros [|e ts] s u seg below Hl V; try discriminate; cbn [match_operands map].
  - unfold vret. split; [apply opsrel_refl|]. split; [exact V|constructor].
  - unfold vbind. pose proof (match_operand_ok a e s u seg below V) as P. destruct (match_operand E a e s) as [[] s1| |].
    2,3: intros H; inversion H; subst; contradiction.
    destruct P as (O & V1 & S). specialize (IH ts s1 u seg below (eq_add_S _ _ Hl) V1). destruct (match_operands E ts ps s1) as [[] s2| |].
    2,3: intros H; inversion H; subst; contradiction.
    destruct IH as (O2 & V2 & D). split; [eapply opsrel_trans; eassumption|]. split; [exact V2|]. constructor; assumption.
Qed.
Lemma dsubs_len a b : dsubs C a b -> List.length a = List.length b. Proof. apply Forall2_len. Qed.
Lemma check_catch_ok X c s u seg below : inst C X s u seg below ->
  match check_catch E c s with VOk _ s' => opsrel s s' /\ view s' u seg below /\ catch_ok C c | _ => ~ catch_ok C c end.
Proof.
  intros In. pose proof (in_view _ _ _ _ _ _ In) as V. destruct c as [tag d|tag d|d|d]; cbn [check_catch catch_ok].
  - unfold vbind at 1. pose proof (look_exn_tag E C HE tag s (inst_shared _ _ _ _ _ _ In)) as P.
    destruct (exception_tag_at E tag s) as [f s1| |]; [|destruct (sig_tag C tag); [discriminate|]; intros (ts & us & H & _); discriminate..].
    destruct P as [-> P]. destruct (sig_tag C tag) as [ps|]; [|discriminate]. injection P as <-. cbn [fn_params].
    match goal with |- match (let! j := jump E d in let! types := label_types E (fst j) (snd j) in @?k types) s with VOk _ _ => _ | VErr _ _ => _ | VPanic => _ end =>
      pose proof (at_label_ok E C HE X s u seg below d k In) as Q; unfold at_label in Q; cbv beta in Q end.
    destruct (label C d) as [l|].
    2: { match goal with |- match ?r with VOk _ _ => _ | VErr _ _ => _ | VPanic => _ end => destruct r end; [contradiction|intros (ts & us & _ & H & _); discriminate..]. }
    rewrite Q. clear Q. unfold vbind, vcheck. destruct (Nat.eqb_spec (List.length ps) (List.length l)) as [Hl|Hl].
    + unfold vret. pose proof (match_operands_ok ps l s u seg below Hl V) as P. destruct (match_operands E l ps s) as [[] s1| |].
      * destruct P as (O & V1 & D). eauto 8.
      * intros (ts & us & H & K & D). injection H as <-. injection K as <-. exact (P D).
      * intros (ts & us & H & K & D). injection H as <-. injection K as <-. exact (P D).
    + cbn. intros (ts & us & H & K & D). injection H as <-. injection K as <-. apply dsubs_len in D. rewrite !map_length in D. exact (Hl D).
  - unfold vbind at 1. pose proof (look_exn_tag E C HE tag s (inst_shared _ _ _ _ _ _ In)) as P.
    destruct (exception_tag_at E tag s) as [f s1| |]; [|destruct (sig_tag C tag); [discriminate|]; intros (ts & us & H & _); discriminate..].
    destruct P as [-> P]. destruct (sig_tag C tag) as [ps|]; [|discriminate]. injection P as <-. cbn [fn_params].
    match goal with |- match (let! j := jump E d in let! types := label_types E (fst j) (snd j) in @?k types) s with VOk _ _ => _ | VErr _ _ => _ | VPanic => _ end =>
      pose proof (at_label_ok E C HE X s u seg below d k In) as Q; unfold at_label in Q; cbv beta in Q end.
    destruct (label C d) as [l|].
    2: { match goal with |- match ?r with VOk _ _ => _ | VErr _ _ => _ | VPanic => _ end => destruct r end; [contradiction|intros (ts & us & _ & H & _); discriminate..]. }
    rewrite Q. clear Q. unfold vbind, vcheck. destruct (Nat.eqb_spec (List.length ps + 1) (List.length l)) as [Hl|Hl].
    + unfold vret. assert (Hl' : List.length (ps ++ [EXN]) = List.length l) by (rewrite app_length; exact Hl).
      pose proof (match_operands_ok (ps ++ [EXN]) l s u seg below Hl' V) as P. destruct (match_operands E l (ps ++ [EXN]) s) as [[] s1| |].
      * destruct P as (O & V1 & D). eauto 8.
      * intros (ts & us & H & K & D). injection H as <-. injection K as <-. exact (P D).
      * intros (ts & us & H & K & D). injection H as <-. injection K as <-. exact (P D).
    + cbn. intros (ts & us & H & K & D). injection H as <-. injection K as <-. apply dsubs_len in D. rewrite !map_length, app_length in D. exact (Hl D).
  - match goal with |- match (let! j := jump E d in let! types := label_types E (fst j) (snd j) in @?k types) s with VOk _ _ => _ | VErr _ _ => _ | VPanic => _ end =>
      pose proof (at_label_ok E C HE X s u seg below d k In) as Q; unfold at_label in Q; cbv beta in Q end.
    destruct (label C d) as [l|].
    2: { match goal with |- match ?r with VOk _ _ => _ | VErr _ _ => _ | VPanic => _ end => destruct r end; [contradiction|discriminate..]. }
    rewrite Q. clear Q. unfold vcheck. destruct l as [|t l]; cbn; [split; [apply opsrel_refl|auto]|discriminate].
  - match goal with |- match (let! j := jump E d in let! types := label_types E (fst j) (snd j) in @?k types) s with VOk _ _ => _ | VErr _ _ => _ | VPanic => _ end =>
      pose proof (at_label_ok E C HE X s u seg below d k In) as Q; unfold at_label in Q; cbv beta in Q end.
    destruct (label C d) as [l|].
    2: { match goal with |- match ?r with VOk _ _ => _ | VErr _ _ => _ | VPanic => _ end => destruct r end; [contradiction|intros (us & H & _); discriminate..]. }
    rewrite Q. clear Q. destruct l as [|t [|t2 l]].
    + intros (us & H & D). injection H as <-. inversion D.
    + unfold vcheck, Checks.sub. rewrite (eo_res _ _ HE). change (r_is_subtype (cx_mod C)) with (sub C).
      destruct (sub C EXN t) eqn:Hs.
      * unfold vret. split; [apply opsrel_refl|]. split; [exact V|]. exists [t]. split; [reflexivity|]. constructor; [exact Hs|constructor].
      * cbn. intros (us & H & D). injection H as <-. inversion D as [|? ? ? ? D1 _]; subst. cbn [dsub] in D1. unfold EXN in Hs. congruence.
    + intros (us & H & D). injection H as <-. inversion D as [|? ? ? ? _ D1]; subst. inversion D1.
Qed.
Lemma catches_ok X l : forall s u seg below, inst C X s u seg below ->
  match vall (check_catch E) l s with VOk _ s' => opsrel s s' /\ view s' u seg below /\ Forall (catch_ok C) l | _ => ~ Forall (catch_ok C) l end.
Proof.
  induction l as [|c l IH]; intros s u seg below In; cbn [vall].
  - unfold vret. split; [apply opsrel_refl|]. split; [exact (in_view _ _ _ _ _ _ In)|constructor].
  - unfold vbind. pose proof (check_catch_ok X c s u seg below In) as P. destruct (check_catch E c s) as [[] s1| |].
    2,3: intros H; inversion H; subst; contradiction.
    destruct P as (O & V & H). specialize (IH s1 u seg below (inst_ops _ _ _ _ _ _ _ _ In O V)). destruct (vall (check_catch E) l s1) as [[] s2| |].
    2,3: intros K; inversion K; subst; contradiction.
    destruct IH as (O2 & V2 & K). split; [eapply opsrel_trans; eassumption|auto].
Qed.
End Blocks.
