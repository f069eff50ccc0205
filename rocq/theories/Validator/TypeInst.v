(** States of the validator that agree with a typing context, and how one operator takes one to another. *)
From Verif.Base Require Import Prelude.
From Verif.Locals Require Import Model Proofs.
From Verif.Types Require Import RefModel CodecModel CanonModel.
From Verif.Instr Require Import ImmModel Ops.
From Verif.Validator Require Import State Checks Visit Undo Top Sig TypeSpec TypeBase TypeSem TypeLook TypeSig TypeSigs.

Section Types.
Variable C : ctx.
Definition bparams (b : block) : option (list val) :=
  match b with BEmpty | BType _ => Some [] | BFunc t => match sig_func C t with Some f => Some (fn_params f) | None => None end end.
Definition bresults (b : block) : option (list val) :=
  match b with BEmpty => Some [] | BType v => Some [v] | BFunc t => match sig_func C t with Some f => Some (fn_results f) | None => None end end.
Definition flabel (b : block) (k : frame_kind) : option (list val) := match k with FLoop => bparams b | _ => bresults b end.
Definition ext (is0 is1 : inits_t) : Prop := exists und, inits_pop is1 (inits_height is0) = Some (is0, und).
Definition same_frame (f g : frame) : Prop :=
  fr_kind g = fr_kind f /\ fr_block g = fr_block f /\ fr_height g = fr_height f /\ fr_init_height g = fr_init_height f.
Record inst (X : list Z) (s : vst) (u : bool) (seg below : list (maybe val)) : Prop := mkInst
  { in_view : view s u seg below;
    in_labels : Forall2 (fun fr l => flabel (fr_block fr) (fr_kind fr) = Some l) (vs_control s) (cx_labels C);
    in_return : exists outer fr, vs_control s = outer ++ [fr] /\ bresults (fr_block fr) = Some (cx_return C);
    in_shared : vs_shared s = cx_shared C;
    in_locals : forall i, 0 <= i -> Model.get (vs_locals s) i = nth_error (cx_locals C) (Z.to_nat i);
    in_wf : inits_wf (vs_inits s);
    in_inits : forall i, 0 <= i -> (Z.to_nat i < List.length (cx_locals C))%nat ->
      exists b, is_uninit (vs_inits s) i = Some (negb b) /\ (b = true <-> In i X) }.
Record kept (s s' : vst) : Prop := mkKept
  { kp_frame : exists fr fr' rest, vs_control s = fr :: rest /\ vs_control s' = fr' :: rest /\ same_frame fr fr';
    kp_inits : forall is0, ext is0 (vs_inits s) -> ext is0 (vs_inits s') }.
Lemma same_frame_refl f : same_frame f f. Proof. repeat split. Qed.
Lemma kept_refl X s u seg below : inst X s u seg below -> kept s s.
Proof. intros [[_ (fr & rest & H & _)] _ _ _ _ _ _]. split; [exists fr, fr, rest|]; auto using same_frame_refl. Qed.
Lemma kept_trans a b c : kept a b -> kept b c -> kept a c.
Proof.
  intros [(f & g & r & H1 & H2 & F) I1] [(f' & g' & r' & H3 & H4 & G) I2]. rewrite H2 in H3. injection H3 as <- <-.
  split; [|auto]. exists f, g', r. split; [exact H1|split; [exact H4|]]. unfold same_frame in *. intuition congruence.
Qed.
Lemma inst_ops X s s' u seg seg' below : inst X s u seg below -> opsrel s s' -> view s' u seg' below -> inst X s' u seg' below.
Proof.
  intros [V L R S Lo W Ii] O V'. destruct O as [O1 O2 O3 O4 O5 O6]. split; auto; rewrite ?O1, ?O2, ?O3, ?O4; auto.
Qed.
Lemma kept_ops X s s' u seg below : inst X s u seg below -> opsrel s s' -> kept s s'.
Proof. intros H O. destruct (kept_refl _ _ _ _ _ H) as [(f & g & r & H1 & H2 & F) I1]. split; [exists f, g, r; rewrite (or_control _ _ O); auto|]. rewrite (or_inits _ _ O). auto. Qed.
Lemma inst_shared X s u seg below : inst X s u seg below -> inv C s. Proof. intros H. exact (in_shared _ _ _ _ _ H). Qed.
Lemma inst_set X Y s u seg below : (forall i, In i X <-> In i Y) -> inst X s u seg below -> inst Y s u seg below.
Proof.
  intros E [V L R S Lo W Ii]. split; auto. intros i H1 H2. destruct (Ii i H1 H2) as (b & B1 & B2). exists b. split; [exact B1|]. rewrite B2. apply E.
Qed.

Lemma ext_refl is : ext is is. Proof. exists []. apply inits_pop_id. Qed.
Lemma ext_set is0 is1 i is2 : inits_wf is1 -> 0 <= i -> ext is0 is1 -> set_init is1 i = Some is2 -> ext is0 is2.
Proof.
  intros [W1 W2 W3] Hi [und E] S. destruct (set_init_cases _ _ _ S) as [->|(H1 & H2 & ->)]; [exists und; exact E|].
  unfold ext, inits_pop in *. cbn [li_log li_bits li_first]. destruct (Nat.ltb_spec (List.length (li_log is1)) (inits_height is0)) as [|Hh]; [discriminate|].
  rewrite app_length. destruct (Nat.ltb_spec (List.length (li_log is1) + List.length [i]) (inits_height is0)); [lia|]. injection E as E <-.
  eexists. f_equal. f_equal. set (h := inits_height is0) in *. clearbody h. rewrite <- E.
  rewrite skipn_app, firstn_app. replace (h - List.length (li_log is1))%nat with O by lia. cbn [skipn firstn]. rewrite app_nil_r.
  rewrite fold_left_app. cbn [fold_left]. f_equal.
  assert (Hn : ~ In i (skipn h (li_log is1))).
  { intros K. assert (K' : In i (li_log is1)) by (rewrite <- (firstn_skipn h); apply in_app_iff; auto). apply W3 in K'. destruct K'. congruence. }
  assert (Hp : forall j, In j (skipn h (li_log is1)) -> 0 <= j).
  { intros j K. assert (K' : In j (li_log is1)) by (rewrite <- (firstn_skipn h); apply in_app_iff; auto). apply W3 in K'. lia. }
  rewrite clear_set by assumption. rewrite set_bit_twice. apply set_bit_same. rewrite clear_nth by assumption.
  destruct (in_dec Z.eq_dec i (skipn h (li_log is1))); [contradiction|exact H2].
Qed.

(** ** The top of the stack *)
Definition top (u : bool) (seg : list (maybe val)) : option (maybe val * list (maybe val)) :=
  match seg with m :: seg => Some (m, seg) | [] => if u then Some (Bottom, []) else None end.
Lemma fits_top u seg t a : fits C u seg (t :: a) <-> exists m seg', top u seg = Some (m, seg') /\ mt C m t /\ fits C u seg' a.
Proof.
  destruct seg as [|m seg]; cbn [fits top].
  - split; [intros ->|intros (m & seg' & H & _); destruct u; [reflexivity|discriminate]].
    exists Bottom, []. split; [reflexivity|]. split; [exact I|]. destruct a; cbn; auto.
  - split; [intros [H K]; exists m, seg; auto|]. intros (m' & seg' & H & K). injection H as <- <-. exact K.
Qed.
Lemma skip_top u seg m seg' n : top u seg = Some (m, seg') -> skipn (S n) seg = skipn n seg'.
Proof. destruct seg; cbn [top skipn]; [destruct u; [|discriminate]|]; intros H; injection H as <- <-; [rewrite skipn_nil|]; reflexivity. Qed.
Lemma fits_nil u seg : fits C u seg []. Proof. destruct seg; exact I. Qed.

(** ** Types of operators, with the top of the stack first *)
Definition typ (X : list Z) (o : operator) (a b : list dt) : Prop := exists xs, i_ok C X (IOp o) (rev a) xs (rev b).
Definition rone (X : list Z) (i : instr) (ts us : list dt) : Prop := one C X i (rev ts) (rev us).
Lemma dsubs_rev a b : dsubs C a b <-> dsubs C (rev a) (rev b).
Proof.
  assert (K : forall a b, dsubs C a b -> dsubs C (rev a) (rev b)).
  { induction 1 as [|x y l m H _ IH]; [constructor|]. cbn [rev]. apply Forall2_app; auto. }
  split; [apply K|]. intros H. apply K in H. rewrite !rev_involutive in H. exact H.
Qed.
Lemma rone_typ X o ts us : rone X (IOp o) ts us <-> exists a b f, typ X o a b /\ dsubs C ts (a ++ f) /\ dsubs C (b ++ f) us.
Proof.
  unfold rone, one, typ. split.
  - intros (f & a & xs & b & H & T & U). exists (rev a), (rev b), (rev f). rewrite !rev_involutive. split; [eauto|].
    apply dsubs_rev in T. apply dsubs_rev in U. rewrite rev_app_distr, rev_involutive in *. auto.
  - intros (a & b & f & (xs & H) & T & U). exists (rev f), (rev a), xs, (rev b). split; [exact H|].
    rewrite <- !rev_app_distr, <- !dsubs_rev. auto.
Qed.
Definition stepped (P : list dt -> list dt -> Prop) (u : bool) (seg : list (maybe val)) (u' : bool) (seg' : list (maybe val)) : Prop :=
  forall us, sem C u' seg' us <-> exists a b f, P a b /\ fits C u seg a /\ sem C u (skipn (List.length a) seg) f /\ dsubs C (b ++ f) us.
Definition stuck (P : list dt -> list dt -> Prop) (u : bool) (seg : list (maybe val)) : Prop := forall a b, P a b -> ~ fits C u seg a.
Hypothesis HM : res_ok (cx_mod C).
Lemma stepped_rone X o u seg u' seg' : stepped (typ X o) u seg u' seg' ->
  forall us, sem C u' seg' us <-> exists ts, sem C u seg ts /\ rone X (IOp o) ts us.
Proof.
  intros H us. rewrite (H us). split.
  - intros (a & b & f & P & F & G & U). exists (a ++ f). split; [apply sem_app; auto|]. apply rone_typ. exists a, b, f.
    split; [exact P|]. split; [apply dsubs_refl, HM|exact U].
  - intros (ts & K & R). apply rone_typ in R. destruct R as (a & b & f & P & T & U). exists a, b, f. split; [exact P|].
    pose proof (sem_fits C HM _ _ _ _ _ K T) as [F G]. auto.
Qed.
Lemma stuck_rone X o u seg : stuck (typ X o) u seg -> forall ts us, sem C u seg ts -> ~ rone X (IOp o) ts us.
Proof.
  intros H ts us K R. apply rone_typ in R. destruct R as (a & b & f & P & T & U). eapply H; [exact P|]. eapply sem_fits; eassumption.
Qed.
(** An operator of one type. *)
Lemma stepped_fixed (P : list dt -> list dt -> Prop) u seg a vs : (forall a' b', P a' b' <-> a' = a /\ b' = dv vs) -> fits C u seg a ->
  stepped P u seg u (map Known vs ++ skipn (List.length a) seg).
Proof.
  intros HP F us. rewrite sem_push. split.
  - intros (b & f & -> & K & L). apply mt_known in K. exists a, (dv vs), f. split; [apply HP; auto|]. split; [exact F|]. split; [exact L|].
    apply dsubs_app; [exact K|apply dsubs_refl, HM].
  - intros (a' & b' & f & H & K & L & U). apply HP in H. destruct H as [-> ->].
    apply Forall2_app_inv_l in U. destruct U as (b & g & U1 & U2 & ->).
    exists b, g. split; [reflexivity|]. split; [apply mt_known; exact U1|eapply sem_up; eassumption].
Qed.
(** One that does not return. *)
Lemma stepped_poly (P : list dt -> list dt -> Prop) u seg a : (forall x b, P (a ++ x) b) -> fits C u seg a -> stepped P u seg true [].
Proof.
  intros HP F us. split; [|intros _; apply sem_nil_true]. intros _. destruct (sem_some C HM u (skipn (List.length a) seg)) as (x & Hx).
  exists (a ++ x), us, []. split; [apply HP|]. rewrite app_nil_r, app_length, <- skipn_add, fits_app.
  assert (K : sem C u (skipn (List.length a) seg) (x ++ [])) by (rewrite app_nil_r; exact Hx). apply sem_app in K.
  split; [tauto|]. split; [tauto|apply dsubs_refl, HM].
Qed.
Lemma stuck_poly (P : list dt -> list dt -> Prop) u seg a : (forall a' b, P a' b -> exists x, dsubs C a' (a ++ x)) -> ~ fits C u seg a -> stuck P u seg.
Proof.
  intros HP F a' b H K. destruct (HP _ _ H) as (x & S). apply F. pose proof (fits_up C HM _ _ _ _ K S) as L. apply fits_app in L. tauto.
Qed.
End Types.

Section Ops.
Variable E : env.
Variable C : ctx.
Hypothesis HM : res_ok (cx_mod C).
Hypothesis HE : envok E C.
Definition ok_step X o (s : vst) u seg below (r : vres unit) : Prop :=
  match r with
  | VOk _ s' => exists u' seg', inst C (sets (IOp o) ++ X) s' u' seg' below /\ kept s s' /\ stepped C (typ C X o) u seg u' seg'
  | _ => stuck C (typ C X o) u seg
  end.
Lemma ok_step_same X o s u seg below r r' : same r r' -> ok_step X o s u seg below r' -> ok_step X o s u seg below r.
Proof. destruct r, r'; cbn [same]; try tauto; try (intros [-> ->]; auto); cbn; auto. Qed.
Lemma pop_top e s u seg below : view s u seg below ->
  match pop_operand E e s with
  | VOk m s' => exists seg', top u seg = Some (m, seg') /\ wants C e m /\ opsrel s s' /\ view s' u seg' below
  | _ => forall m seg', top u seg = Some (m, seg') -> ~ wants C e m
  end.
Proof.
  intros V. pose proof (pop_ok E C HM (eo_res _ _ HE) e s u seg below V) as P.
  destruct (pop_operand E e s) as [m s'| |]; destruct seg as [|m' seg]; cbn [top].
  - destruct P as (O & W & -> & -> & V'). exists []. auto.
  - destruct P as (O & W & -> & V'). exists seg. auto.
  - rewrite P. discriminate.
  - intros m seg' H. injection H as <- <-. exact P.
  - rewrite P. discriminate.
  - intros m seg' H. injection H as <- <-. exact P.
Qed.
Lemma unreachable_ok X s u seg below : inst C X s u seg below -> exists s', unreachable s = VOk tt s' /\ inst C X s' true [] below /\ kept s s'.
Proof.
  intros In. pose proof In as [[V1 (fr & rest & V2 & V3 & V4)] L R S Lo W Ii]. unfold unreachable. rewrite V2.
  set (s0 := if fr_unreachable fr then s else log_map log_unreachable s).
  assert (A : vs_operands s0 = vs_operands s /\ vs_locals s0 = vs_locals s /\ vs_inits s0 = vs_inits s /\ vs_shared s0 = vs_shared s).
  { unfold s0. destruct (fr_unreachable fr); [auto|]. unfold log_map. destruct (vs_log s); cbn; auto. }
  destruct A as (A1 & A2 & A3 & A4). cbn [with_control vs_operands]. rewrite A1, V1, app_length, V3.
  destruct (Nat.ltb_spec (List.length seg + List.length below) (List.length below)); [lia|].
  replace (List.length seg + List.length below - List.length below)%nat with (List.length seg) by lia.
  rewrite skipn_app, skipn_all, Nat.sub_diag. cbn [skipn app].
  eexists. split; [reflexivity|].
  match goal with |- inst _ _ ?t _ _ _ /\ _ => set (s1 := t) end.
  assert (B : vs_operands s1 = below /\ vs_locals s1 = vs_locals s /\ vs_inits s1 = vs_inits s /\ vs_shared s1 = vs_shared s /\
     vs_control s1 = mkFrame (fr_kind fr) (fr_block fr) (List.length below) true (fr_init_height fr) :: rest).
  { unfold s1, log_map. cbn. destruct (vs_log s0); cbn; rewrite ?A2, ?A3, ?A4; auto. }
  destruct B as (B1 & B2 & B3 & B4 & B5). split.
  - split; rewrite ?B2, ?B3, ?B4, ?B5; auto.
    + split; [rewrite B1; reflexivity|]. rewrite B5. eexists _, _. split; [reflexivity|]. auto.
    + clear - L V2. rewrite V2 in L. inversion L; subst. constructor; auto.
    + destruct R as (outer & fr0 & R1 & R2). rewrite V2 in R1. destruct outer as [|f outer]; cbn [app] in R1; injection R1 as -> ->.
      * exists [], (mkFrame (fr_kind fr0) (fr_block fr0) (List.length below) true (fr_init_height fr0)). auto.
      * eexists (_ :: outer), fr0. split; [reflexivity|exact R2].
  - split; [|rewrite B3; auto]. exists fr. eexists. exists rest. split; [exact V2|]. split; [exact B5|]. repeat split. cbn. auto.
Qed.

(** ** Labels *)
Lemma look_params b : look C (params E b) (bparams C b).
Proof. destruct b; cbn [params bparams]; try apply look_ret. eapply look_eq; [eapply look_bind; [apply look_func; assumption|intros; apply look_ret]|reflexivity]. Qed.
Lemma look_results b : look C (results E b) (bresults C b).
Proof. destruct b; cbn [results bresults]; try apply look_ret. eapply look_eq; [eapply look_bind; [apply look_func; assumption|intros; apply look_ret]|reflexivity]. Qed.
Lemma look_flabel b k : look C (label_types E b k) (flabel C b k).
Proof. destruct k; first [apply look_params | apply look_results]. Qed.
Definition at_label {A} (d : Z) (k : list val -> V A) : V A :=
  let! j := jump E d in let! ts := label_types E (fst j) (snd j) in k ts.
Lemma at_label_ok {A} X s u seg below d (k : list val -> V A) : inst C X s u seg below ->
  match label C d with Some l => at_label d k s = k l s | None => match at_label d k s with VOk _ _ => False | _ => True end end.
Proof.
  intros In. pose proof (in_labels _ _ _ _ _ _ In) as L. unfold label, at_label, jump, vbind, vget.
  destruct (in_view _ _ _ _ _ _ In) as [_ (fr & rest & V2 & _)].
  destruct (vs_control s) as [|fr0 c] eqn:Hc; [discriminate|]. clear V2.
  assert (K : match nth_error (fr0 :: c) (Z.to_nat d), nth_error (cx_labels C) (Z.to_nat d) with
    | Some f, Some l => flabel C (fr_block f) (fr_kind f) = Some l | None, None => True | _, _ => False end).
  { revert L. generalize (fr0 :: c) (cx_labels C) (Z.to_nat d). intros a b n H. revert n. induction H; intros [|n]; cbn; auto. apply IHForall2. }
  destruct (nth_error (fr0 :: c) (Z.to_nat d)) as [f|], (nth_error (cx_labels C) (Z.to_nat d)) as [l|]; try contradiction.
  - unfold vret. cbn [fst snd]. pose proof (look_flabel (fr_block f) (fr_kind f) s (inst_shared _ _ _ _ _ _ In)) as P.
    destruct (label_types E (fr_block f) (fr_kind f) s) as [l' s'| |]; [|congruence..]. destruct P as [-> P]. rewrite K in P. injection P as ->. reflexivity.
  - exact I.
Qed.
Lemma outermost_ok X s u seg below : inst C X s u seg below -> outermost_results E s = VOk (cx_return C) s.
Proof.
  intros In. destruct (in_return _ _ _ _ _ _ In) as (outer & fr & H & R). unfold outermost_results, vbind, vget. rewrite H, rev_unit.
  pose proof (look_results (fr_block fr) s (inst_shared _ _ _ _ _ _ In)) as P. destruct (results E (fr_block fr) s) as [l s'| |]; [|congruence..].
  destruct P as [-> P]. congruence.
Qed.

(** ** Operators of one type *)
Lemma typ_sig X o a b : special o = false -> (typ C X o a b <-> exists ins outs, sig C o = Some (ins, outs) /\ a = rev (dv ins) /\ b = rev (dv outs)).
Proof.
  intros Hs. unfold typ. split.
  - intros (xs & H). inversion H; subst; try discriminate Hs.
    + exists ins, outs. split; [assumption|]. rewrite <- (rev_involutive a), <- (rev_involutive b). split; congruence.
    + destruct o; try contradiction; discriminate Hs.
    + match goal with K : _ \/ _ |- _ => destruct K; subst; discriminate Hs end.
  - intros (ins & outs & H & -> & ->). exists []. rewrite !rev_involutive. constructor. exact H.
Qed.
Lemma by_sig_ok s u seg below ins outs : view s u seg below ->
  match by_sig E (Some (ins, outs)) s with
  | VOk _ s' => opsrel s s' /\ fits C u seg (dv (rev ins)) /\ view s' u (map Known (rev outs) ++ skipn (List.length ins) seg) below
  | _ => ~ fits C u seg (dv (rev ins))
  end.
Proof.
  intros V. cbn [by_sig]. unfold vbind. pose proof (pops_ok E C HM (eo_res _ _ HE) ins s u seg below V) as P.
  destruct (pops E ins s) as [[] s1| |]; [|exact P..]. destruct P as (O & F & V1).
  destruct (pushes_ok outs s1 _ _ _ V1) as (s2 & -> & O2 & V2). split; [eapply opsrel_trans; eassumption|auto].
Qed.
Lemma fixed_ok X o s u seg below ins outs : inst C X s u seg below -> sets (IOp o) = [] ->
  (forall a b, typ C X o a b <-> a = dv (rev ins) /\ b = dv (rev outs)) -> ok_step X o s u seg below (by_sig E (Some (ins, outs)) s).
Proof.
  intros In So HP. pose proof (by_sig_ok s u seg below ins outs (in_view _ _ _ _ _ _ In)) as P.
  destruct (by_sig E (Some (ins, outs)) s) as [[] s'| |]; cbn [ok_step].
  - destruct P as (O & F & V). rewrite So. exists u, (map Known (rev outs) ++ skipn (List.length ins) seg). split; [eapply inst_ops; eassumption|].
    split; [eapply kept_ops; eassumption|]. pose proof (stepped_fixed C HM _ u seg _ (rev outs) HP F) as K. rewrite map_length, rev_length in K. exact K.
  - intros a b T. apply HP in T. destruct T as [-> ->]. exact P.
  - intros a b T. apply HP in T. destruct T as [-> ->]. exact P.
Qed.
Lemma sig_sets o : special o = false -> sets (IOp o) = []. Proof. destruct o; intros H; try reflexivity; discriminate. Qed.
Theorem sig_step X o s u seg below : covered o = true -> special o = false -> inst C X s u seg below -> ok_step X o s u seg below (visit E o s).
Proof.
  intros Hc Hs In. eapply ok_step_same; [apply (visit_sig E C HM HE o Hc Hs); exact (inst_shared _ _ _ _ _ _ In)|].
  destruct (sig C o) as [[ins outs]|] eqn:Hsig.
  - apply fixed_ok; auto using sig_sets. intros a b. rewrite typ_sig by exact Hs. rewrite Hsig, !map_rev. split.
    + intros (i & u' & H & -> & ->). injection H as <- <-. auto.
    + intros [-> ->]. eauto.
  - cbn. intros a b T. rewrite typ_sig in T by exact Hs. destruct T as (i & u' & H & _). congruence.
Qed.
End Ops.
