(** The kinds of the open blocks: the validator's control stack and the stack of [OperatorsReader] agree, and
    what the latter accepts is nested. *)
From Verif.Base Require Import Prelude.
From Verif.Reader Require Import Model.
From Verif.Locals Require Import Model Proofs.
From Verif.Types Require Import RefModel CodecModel CanonModel.
From Verif.Instr Require Import ImmModel Ops BodyModel.
From Verif.Instr Require Visit.
From Verif.Validator Require Import State Checks Visit Generic Undo Top Api Body Sig TypeSpec TypeRun.

Definition kinds (s : vst) : list frame_kind := map fr_kind (vs_control s).
Definition stable {A} (m : V A) : Prop := forall s a s', m s = VOk a s' -> kinds s' = kinds s.
Lemma stable_opnd {A} (m : V A) : opnd m -> stable m.
Proof. intros H s a s' E. specialize (H s). rewrite E in H. unfold kinds. rewrite (or_control _ _ H). reflexivity. Qed.
Lemma stable_bind {A B} (m : V A) (k : A -> V B) : stable m -> (forall a, stable (k a)) -> stable (vbind m k).
Proof.
  intros Hm Hk s b s' E. unfold vbind in E. destruct (m s) as [a s1| |] eqn:Em; try discriminate.
  rewrite (Hk _ _ _ _ E). exact (Hm _ _ _ Em).
Qed.
Lemma kinds_log f s : kinds (log_map f s) = kinds s. Proof. reflexivity. Qed.
Lemma stable_unreachable : stable unreachable.
Proof.
  intros s a s' E. unfold unreachable in E. destruct (vs_control s) as [|fr c] eqn:Ec; [discriminate|].
  destruct (fr_unreachable fr); cbn [vs_operands with_control with_operands log_map with_log] in E;
    (destruct (List.length (vs_operands s) <? fr_height fr)%nat; [discriminate|]; injection E as _ <-); unfold kinds; cbn; rewrite Ec; reflexivity.
Qed.
Lemma stable_set i : stable (local_set_init i).
Proof. intros s a s' E. unfold local_set_init in E. destruct (set_init (vs_inits s) i); [|discriminate]. injection E as _ <-. reflexivity. Qed.
Lemma stable_flat E o : flat_op o = true -> stable (visit_op E o).
Proof.
  apply (P_flat E (@stable)); intros; auto using @stable_bind, stable_unreachable, stable_set.
  all: apply stable_opnd; auto using @opnd_ret, @opnd_panic, @opnd_fail, @opnd_lift, @opnd_get, opnd_push_maybe, opnd_pop_operand.
Qed.
Lemma stable_gate E o : stable (match gate o with Some (f, msg) => require E f msg | None => vret tt end).
Proof. apply stable_opnd. destruct (gate o) as [[f msg]|]; [apply opnd_require|apply opnd_ret]. Qed.
(** Pushing and popping frames. *)
Lemma push_kinds E k b s a s' : push_ctrl E k b s = VOk a s' -> kinds s' = k :: kinds s.
Proof.
  unfold push_ctrl, vbind, push_bare_ctrl. intros H.
  set (s1 := log_map _ _) in H. change (k :: kinds s) with (kinds s1).
  refine (stable_opnd (let! ps := params E b in pushes ps) _ s1 a s' H). apply opnd_bind; [apply opnd_params|intros; apply opnd_pushes].
Qed.
Lemma pop_kinds E s fr s' : pop_ctrl E s = VOk fr s' -> kinds s = fr_kind fr :: kinds s'.
Proof.
  unfold pop_ctrl, vbind, vget. destruct (vs_control s) as [|f c] eqn:Ec; [discriminate|].
  pose proof (opnd_results E (fr_block f) s) as H1. destruct (results E (fr_block f) s) as [ts s1| |]; try discriminate.
  pose proof (opnd_pops E ts s1) as H2. destruct (pops E ts s1) as [[] s2| |]; try discriminate.
  unfold vcheck. destruct (List.length (vs_operands s2) =? fr_height f)%nat; [|discriminate]. unfold vret, drop_ctrl.
  assert (Ec2 : vs_control s2 = f :: c) by (rewrite (or_control _ _ H2), (or_control _ _ H1); exact Ec). rewrite Ec2.
  destruct (inits_pop (vs_inits s2) (fr_init_height f)) as [[is und]|]; [|discriminate]. intros H. injection H as <- <-.
  unfold kinds. rewrite Ec. reflexivity.
Qed.
Definition step_kinds (o : operator) (l : list frame_kind) : list frame_kind :=
  match o with
  | Op_Block _ => FBlock :: l
  | Op_Loop _ => FLoop :: l
  | Op_If _ => FIf :: l
  | Op_TryTable _ => FTryTable :: l
  | Op_Else => FElse :: tl l
  | Op_Try _ => FLegacyTry :: l
  | Op_Catch _ => FLegacyCatch :: tl l
  | Op_CatchAll => FLegacyCatchAll :: tl l
  | Op_End | Op_Delegate _ => tl l
  | _ => l
  end.
(** The operators of bodies with typing rules. *)
Definition in_scope (o : operator) : bool :=
  match o with Op_Block _ | Op_Loop _ | Op_If _ | Op_Else | Op_End | Op_TryTable _ => true | _ => covered o end.
Lemma covered_flat o : covered o = true -> flat_op o = true.
Proof. destruct o; try discriminate; reflexivity. Qed.
Lemma flat_step o l : flat_op o = true -> step_kinds o l = l.
Proof. destruct o; try reflexivity; discriminate. Qed.
Lemma op_kinds E o s s' : op E o s = VOk tt s' -> kinds s' = step_kinds o (kinds s).
Proof.
  intros H. unfold op, visit, vbind in H.
  pose proof (stable_gate E o s) as G. destruct ((match gate o with Some (f, msg) => require E f msg | None => vret tt end) s) as [[] s1| |]; try discriminate.
  specialize (G tt s1 eq_refl). rewrite <- G. clear G s.
  destruct (flat_op o) eqn:Ef; [rewrite (flat_step o) by exact Ef; exact (stable_flat E o Ef _ _ _ H)|].
  assert (Blk : forall k b, visit_block_kind E k b s1 = VOk tt s' -> kinds s' = k :: kinds s1).
  { intros k b. unfold visit_block_kind, vbind. pose proof (opnd_block_type E b s1) as H1. destruct (check_block_type E b s1) as [bb s2| |]; try discriminate.
    pose proof (opnd_params E bb s2) as H2. destruct (params E bb s2) as [ps s3| |]; try discriminate.
    pose proof (opnd_pops E ps s3) as H3. destruct (pops E ps s3) as [[] s4| |]; try discriminate. intros H4. apply push_kinds in H4. rewrite H4.
    unfold kinds. rewrite (or_control _ _ H3), (or_control _ _ H2), (or_control _ _ H1). reflexivity. }
  destruct o; try discriminate Ef; clear Ef; cbn [visit_op step_kinds] in *.
  - apply (Blk FBlock blockty). exact H.
  - apply (Blk FLoop blockty). exact H.
  - unfold visit_if, vbind in H. pose proof (opnd_block_type E blockty s1) as H1. destruct (check_block_type E blockty s1) as [bb s2| |]; try discriminate.
    pose proof (opnd_pop E VI32 s2) as H0. destruct (pop E VI32 s2) as [[] s20| |]; try discriminate.
    pose proof (opnd_params E bb s20) as H2. destruct (params E bb s20) as [ps s3| |]; try discriminate.
    pose proof (opnd_pops E ps s3) as H3. destruct (pops E ps s3) as [[] s4| |]; try discriminate. apply push_kinds in H. rewrite H.
    unfold kinds. rewrite (or_control _ _ H3), (or_control _ _ H2), (or_control _ _ H0), (or_control _ _ H1). reflexivity.
  - unfold visit_else, vbind in H. destruct (pop_ctrl E s1) as [fr s2| |] eqn:Ep; try discriminate. apply pop_kinds in Ep. apply push_kinds in H. rewrite Ep, H. reflexivity.
  - unfold visit_end, vbind in H. destruct (pop_ctrl E s1) as [fr s2| |] eqn:Ep; try discriminate. apply pop_kinds in Ep. rewrite Ep. cbn [tl].
    destruct (is_if (fr_kind fr)).
    + destruct (push_ctrl E FElse (fr_block fr) s2) as [[] s3| |] eqn:E1; try discriminate. destruct (pop_ctrl E s3) as [fr' s4| |] eqn:E2; try discriminate.
      apply push_kinds in E1. apply pop_kinds in E2. rewrite E1 in E2. injection E2 as _ E2. rewrite E2.
      exact (stable_opnd _ (opnd_end_tail E fr') s4 tt s' H).
    + exact (stable_opnd _ (opnd_end_tail E fr) s2 tt s' H).
  - unfold visit_try_table, vbind in H. pose proof (opnd_block_type E (pt_ty try_table) s1) as H1. destruct (check_block_type E (pt_ty try_table) s1) as [bb s2| |]; try discriminate.
    pose proof (opnd_params E bb s2) as H2. destruct (params E bb s2) as [ps s3| |]; try discriminate.
    pose proof (opnd_pops E ps s3) as H3. destruct (pops E ps s3) as [[] s4| |]; try discriminate.
    pose proof (opnd_all (check_catch E) (pt_catches try_table) (opnd_catch E) s4) as H5. destruct (vall (check_catch E) (pt_catches try_table) s4) as [[] s5| |]; try discriminate.
    apply push_kinds in H. rewrite H.
    unfold kinds. rewrite (or_control _ _ H5), (or_control _ _ H3), (or_control _ _ H2), (or_control _ _ H1). reflexivity.
  - apply (Blk FLegacyTry blockty). exact H.
  - unfold visit_catch, vbind in H. destruct (pop_ctrl E s1) as [fr s2| |] eqn:Ep; try discriminate. apply pop_kinds in Ep. rewrite Ep. cbn [tl].
    change (FLegacyCatch :: kinds s2) with (kinds (log_map (log_frame None []) (with_control s2 (mkFrame FLegacyCatch (fr_block fr) (List.length (vs_operands s2)) false (inits_height (vs_inits s2)) :: vs_control s2)))).
    refine (stable_opnd (let! f := exception_tag_at E tag_index in pushes (fn_params f)) _ _ tt s' H). apply opnd_bind; [apply opnd_tag|intros; apply opnd_pushes].
  - unfold visit_delegate, vbind in H. destruct (pop_ctrl E s1) as [fr s2| |] eqn:Ep; try discriminate. apply pop_kinds in Ep. rewrite Ep. cbn [tl].
    refine (stable_opnd (jump E relative_depth ;; let! ts := results E (fr_block fr) in pushes ts) _ _ tt s' H).
    apply opnd_bind; [apply opnd_jump|intros]. apply opnd_bind; [apply opnd_results|intros; apply opnd_pushes].
  - unfold visit_catch_all, vbind in H. destruct (pop_ctrl E s1) as [fr s2| |] eqn:Ep; try discriminate. apply pop_kinds in Ep. rewrite Ep. cbn [tl].
    unfold push_bare_ctrl in H. injection H as <-. reflexivity.
Qed.

(** * The stack of [OperatorsReader] *)
Definition cs_list (c : cstack) : list frame_kind := match cs_top c with Some k => k :: cs_frames c | None => [] end.
Definition cs_wf (c : cstack) : Prop := cs_top c = None -> cs_frames c = [].
Lemma cs_visit_list o c : cs_wf c -> (exists k, cs_top c = Some k) -> cs_wf (cs_visit o c) /\ cs_list (cs_visit o c) = step_kinds o (cs_list c).
Proof.
  destruct c as [l top]. intros W (k & Hk). cbn [cs_top] in Hk. subst top.
  assert (Same : cs_wf (mkStack l (Some k))) by (intros H; discriminate H).
  assert (Push : forall f, cs_wf (cs_push f (mkStack l (Some k))) /\ cs_list (cs_push f (mkStack l (Some k))) = f :: k :: l) by (intros f; split; [intros H; discriminate H|reflexivity]).
  assert (Pop : cs_wf (cs_pop (mkStack l (Some k))) /\ cs_list (cs_pop (mkStack l (Some k))) = l) by (destruct l; split; try reflexivity; intros H; try discriminate H; reflexivity).
  assert (Swap : forall f, cs_wf (cs_push f (cs_pop (mkStack l (Some k)))) /\ cs_list (cs_push f (cs_pop (mkStack l (Some k)))) = f :: l)
    by (intros f; destruct l; split; try reflexivity; intros H; discriminate H).
  destruct o; cbn [cs_visit step_kinds]; auto; try apply Push; try exact Pop; apply Swap.
Qed.
(** Reading in a frame. *)
Definition fits_frame (cur : option frame_kind) (o : operator) : Prop := match o with Op_Else => cur = Some FIf | _ => True end.

(** * Sequences of operators and the blocks they open and close *)
Inductive path : list frame_kind -> list operator -> list frame_kind -> Prop :=
| path_nil s : path s [] s
| path_cons k s o l s' : in_scope o = true -> fits_frame (Some k) o -> path (step_kinds o (k :: s)) l s' -> path (k :: s) (o :: l) s'.
Lemma covered_plain o : in_scope o = true -> covered o = false -> (exists b, o = Op_Block b \/ o = Op_Loop b \/ o = Op_If b) \/ o = Op_Else \/ o = Op_End \/ (exists t, o = Op_TryTable t).
Proof. destruct o; cbn [in_scope]; try congruence; eauto 8. Qed.
Lemma covered_step o k s : covered o = true -> step_kinds o (k :: s) = k :: s.
Proof. destruct o; try reflexivity; discriminate. Qed.
Lemma flatten_one i es : flatten (i :: es) = flatten_i i ++ flatten es. Proof. reflexivity. Qed.
Lemma nest : forall n l k s s', (List.length l <= n)%nat -> path (k :: s) l s' -> (List.length s' <= List.length s)%nat ->
  exists es x l1, l = flatten es ++ x :: l1 /\ covered_es es = true /\
    ((x = Op_End /\ path s l1 s') \/ (x = Op_Else /\ k = FIf /\ path (FElse :: s) l1 s')).
Proof.
  induction n as [|n IH]; intros l k s s' Hn H Hs.
  { destruct l; [|cbn in Hn; lia]. inversion H; subst. cbn in Hs. lia. }
  inversion H as [|k0 s0 o l0 s0' Ho Hf Hp]; subst; [cbn in Hs; lia|]. cbn [List.length] in Hn.
  (* a complete instruction, then the rest *)
  assert (Next : forall i l1 l2, l0 = l1 ++ l2 -> flatten_i i = o :: l1 -> covered_i i = true -> path (k :: s) l2 s' ->
    exists es x l3, o :: l0 = flatten es ++ x :: l3 /\ covered_es es = true /\ ((x = Op_End /\ path s l3 s') \/ (x = Op_Else /\ k = FIf /\ path (FElse :: s) l3 s'))).
  { intros i l1 l2 -> Hi Hc P. rewrite app_length in Hn. destruct (IH l2 k s s' ltac:(lia) P Hs) as (es & x & l3 & -> & C & K).
    exists (i :: es), x, l3. rewrite flatten_one, Hi. cbn [covered_es forallb]. rewrite <- app_assoc. cbn [app]. unfold covered_es in C. rewrite Hc, C. auto. }
  destruct (covered o) eqn:Ec.
  { rewrite covered_step in Hp by exact Ec. eapply (Next (IOp o) []); [reflexivity|reflexivity|exact Ec|exact Hp]. }
  (* a block that closes with [end] *)
  assert (Blk : forall i f l1, (forall es, flatten_i (i es) = o :: flatten es ++ [Op_End]) -> (forall es, covered_i (i es) = covered_es es) -> f <> FIf ->
    l1 = l0 -> path (f :: k :: s) l1 s' ->
    exists es x l3, o :: l0 = flatten es ++ x :: l3 /\ covered_es es = true /\ ((x = Op_End /\ path s l3 s') \/ (x = Op_Else /\ k = FIf /\ path (FElse :: s) l3 s'))).
  { intros i f l1 Hi Hc Hk -> P. destruct (IH l0 f (k :: s) s' ltac:(lia) P ltac:(cbn [List.length]; lia)) as (es & x & l3 & -> & C & [[-> K]|(-> & Hk' & _)]); [|contradiction].
    eapply (Next (i es) (flatten es ++ [Op_End]) l3); [rewrite <- app_assoc; reflexivity|apply Hi|rewrite Hc; exact C|exact K]. }
  destruct (covered_plain o Ho Ec) as [[b [->|[->| ->]]]|[->|[->|[t ->]]]]; cbn [step_kinds] in Hp.
  - eapply (Blk (fun es => IBlock b es) FBlock); [reflexivity|reflexivity|discriminate|reflexivity|exact Hp].
  - eapply (Blk (fun es => ILoop b es) FLoop); [reflexivity|reflexivity|discriminate|reflexivity|exact Hp].
  - destruct (IH l0 FIf (k :: s) s' ltac:(lia) Hp ltac:(cbn [List.length]; lia)) as (es & x & l3 & -> & C & [[-> K]|(-> & _ & K)]).
    + eapply (Next (IIf b es None) (flatten es ++ [Op_End]) l3); [rewrite <- app_assoc; reflexivity|reflexivity| |exact K]. cbn [covered_i]. rewrite Bool.andb_true_r. exact C.
    + rewrite app_length in Hn. cbn [List.length] in Hn.
      destruct (IH l3 FElse (k :: s) s' ltac:(lia) K ltac:(cbn [List.length]; lia)) as (es2 & x & l4 & -> & C2 & [[-> K2]|(_ & Hk & _)]); [|discriminate].
      eapply (Next (IIf b es (Some es2)) (flatten es ++ Op_Else :: flatten es2 ++ [Op_End]) l4); [|reflexivity| |exact K2].
      * rewrite <- !app_assoc. cbn [app]. rewrite <- !app_assoc. reflexivity.
      * cbn [covered_i]. apply andb_true_intro. split; [exact C|exact C2].
  - exists [], Op_Else, l0. split; [reflexivity|]. split; [reflexivity|]. right. split; [reflexivity|]. cbn [fits_frame] in Hf. split; [congruence|exact Hp].
  - exists [], Op_End, l0. split; [reflexivity|]. split; [reflexivity|]. left. split; [reflexivity|exact Hp].
  - eapply (Blk (fun es => ITryTable t es) FTryTable); [reflexivity|reflexivity|discriminate|reflexivity|exact Hp].
Qed.
Lemma nest_body l : path [FBlock] l [] -> exists es, l = flatten es ++ [Op_End] /\ covered_es es = true.
Proof.
  intros H. destruct (nest (List.length l) l FBlock [] [] (le_n _) H (le_n _)) as (es & x & l1 & -> & C & [[-> K]|(_ & K & _)]); [|discriminate].
  inversion K; subst. exists es. auto.
Qed.
