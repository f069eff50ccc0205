(** Reachable states, [try_op] and the fast path of [pop_operand]. *)
From Verif.Base Require Import Prelude.
From Verif.Locals Require Import Model Proofs.
From Verif.Types Require Import RefModel CodecModel CanonModel.
From Verif.Instr Require Import ImmModel Ops.
From Verif.Validator Require Import State Checks Visit Api Generic Undo.

(** * What an operator does does not depend on the transaction log *)
Definition forget (s : vst) : vst := with_log s None.
Definition forget_res {A} (r : vres A) : vres A :=
  match r with VOk a s => VOk a (forget s) | VErr e s => VErr e (forget s) | VPanic => VPanic end.
Definition blind {A} (m : V A) : Prop := forall s, m (forget s) = forget_res (m s).
Lemma blind_bind {A B} (m : V A) (k : A -> V B) : blind m -> (forall a, blind (k a)) -> blind (vbind m k).
Proof.
  intros Hm Hk s. unfold vbind. rewrite Hm. destruct (m s) as [a s1|e s1|]; cbn; auto. apply Hk.
Qed.
Lemma forget_with_operands s l : forget (with_operands s l) = with_operands (forget s) l. Proof. reflexivity. Qed.
Lemma blind_check E a e (t : maybe val) s s1 : forget s = s1 -> (check_operand E a e ;; vret t) s1 = forget_res ((check_operand E a e ;; vret t) s).
Proof.
  intros <-. unfold check_operand, vbind, vret, vcheck, vfail.
  destruct e as [e|]; cbn; auto. destruct a as [|[u|]|a]; cbn; auto.
  - destruct e; cbn; auto. destruct (r_is_subtype _ _ _); reflexivity.
  - destruct e; cbn; auto.
  - destruct (r_is_subtype _ _ _); reflexivity.
Qed.
Lemma blind_slow E e p : blind (slow_pop_operand E e p).
Proof.
  intros s. unfold slow_pop_operand.
  set (s1 := match p with Some t => with_operands s (t :: vs_operands s) | None => s end).
  replace (match p with Some t => with_operands (forget s) (t :: vs_operands (forget s)) | None => forget s end) with (forget s1) by (unfold s1; destruct p; reflexivity).
  cbn [vs_control forget with_log vs_operands]. destruct (vs_control s1) as [|fr c]; [reflexivity|].
  destruct ((List.length (vs_operands s1) =? fr_height fr)%nat && fr_unreachable fr).
  - apply blind_check. reflexivity.
  - destruct (List.length (vs_operands s1) =? fr_height fr)%nat; [reflexivity|].
    destruct (vs_operands s1) as [|t rest]; [reflexivity|]. apply blind_check. reflexivity.
Qed.
Lemma blind_pop E e : blind (pop_operand E e).
Proof.
  intros s. unfold pop_operand. cbn [vs_operands forget with_log vs_control].
  destruct (vs_operands s) as [|t rest]; [apply blind_slow|].
  assert (H : forall p, slow_pop_operand E e p (with_operands (forget s) rest) = forget_res (slow_pop_operand E e p (with_operands s rest))) by (intros p; exact (blind_slow E e p (with_operands s rest))).
  rewrite ?H.
  destruct t as [|u|a]; auto. destruct e as [e|]; auto. destruct (val_eqb a e); auto. destruct (vs_control s) as [|fr c]; auto.
  destruct (fr_height fr <=? List.length rest)%nat; auto.
Qed.
Lemma blind_get {A} (f : vst -> A) : (forall s, f (forget s) = f s) -> blind (vget f).
Proof. intros H s. unfold vget. rewrite H. reflexivity. Qed.
Lemma blind_unreachable : blind unreachable.
Proof.
  intros s. unfold unreachable. cbn [vs_control forget with_log]. destruct (vs_control s) as [|fr c]; [reflexivity|].
  destruct (fr_unreachable fr); cbn [vs_operands with_control with_operands log_map with_log forget]; destruct (List.length (vs_operands s) <? fr_height fr)%nat; reflexivity.
Qed.
Lemma blind_drop : blind drop_ctrl.
Proof.
  intros s. unfold drop_ctrl. cbn [vs_control vs_inits forget with_log]. destruct (vs_control s) as [|fr c]; [reflexivity|].
  destruct (inits_pop (vs_inits s) (fr_init_height fr)) as [[is und]|]; reflexivity.
Qed.
Lemma blind_set i : blind (local_set_init i).
Proof. intros s. unfold local_set_init. cbn [vs_inits forget with_log]. destruct (set_init (vs_inits s) i); reflexivity. Qed.
Theorem blind_visit E o : blind (visit E o).
Proof.
  apply (P_visit E (@blind)); intros; try (intros s; reflexivity); auto using @blind_bind, blind_pop, blind_unreachable, blind_drop, blind_set.
  all: try (apply blind_get; reflexivity). intros s. destruct r; reflexivity.
Qed.

(** * [op] and [try_op] from a well-formed state *)
Definition ready (s : vst) : Prop := wf s /\ vs_log s = None.
Lemma forget_ready s : vs_log s = None -> forget s = s.
Proof. destruct s; cbn. intros ->. reflexivity. Qed.
Definition started (s : vst) : vst := with_log s (Some (mkLog [] [] [] (inits_height (vs_inits s)) false)).
Lemma op_started E o s : vs_log s = None -> op E o s = forget_res (op E o (started s)).
Proof. intros H. unfold op. rewrite <- blind_visit. unfold started, forget, with_log. cbn. destruct s; cbn in *. subst. reflexivity. Qed.
Lemma begin_started s : vs_log s = None -> begin_try_op s = Some (started s).
Proof. intros H. unfold begin_try_op. rewrite H. reflexivity. Qed.
Lemma wf_forget s : wf s -> wf (forget s). Proof. intros [H1 H2 H3]. constructor; auto. Qed.
Lemma wf_trace s t : wf s -> wf (with_trace s t). Proof. intros [H1 H2 H3]. constructor; auto. Qed.
Lemma op_ready E o s : ready s -> match op E o s with VOk _ s' | VErr _ s' => ready s' | VPanic => True end.
Proof.
  intros (Hw & Hl). rewrite op_started by exact Hl.
  pose proof (visit_back E s Hw o (started s) (begin_started s Hl)) as H. unfold op.
  destruct (visit E o (started s)) as [a s'|e s'|]; cbn; auto; split; try reflexivity; apply wf_forget, (back_wf s), H.
Qed.
Theorem try_op_exact E o s : ready s ->
  match op E o s with
  | VOk _ s' => try_op E o s = VOk tt s'
  | VErr e _ => exists t, try_op E o s = VErr e (with_trace s t)
  | VPanic => try_op E o s = VPanic
  end.
Proof.
  intros (Hw & Hl). rewrite op_started by exact Hl. unfold try_op. rewrite begin_started by exact Hl.
  pose proof (visit_back E s Hw o (started s) (begin_started s Hl)) as H. unfold op.
  destruct (visit E o (started s)) as [a s'|e s'|]; cbn; auto.
  rewrite (back_rollback s s' Hl H). eauto.
Qed.
(** The log suffices after a success too. *)
Theorem rollback_any E o s : ready s ->
  match op E o (started s) with VOk _ s' | VErr _ s' => exists t, rollback s' = Some (with_trace s t) | VPanic => True end.
Proof.
  intros (Hw & Hl). pose proof (visit_back E s Hw o (started s) (begin_started s Hl)) as H. unfold op.
  destruct (visit E o (started s)) as [a s'|e s'|]; cbn; auto; rewrite (back_rollback s s' Hl H); eauto.
Qed.

(** * Reachable states are well formed *)
Lemma iwf_params is n : inits_wf is -> inits_wf (Model.define_params is n).
Proof.
  intros [H1 H2 H3]. constructor; cbn; auto. intros i Hi. destruct (H3 i Hi) as (H4 & H5). split; auto.
  rewrite nth_error_app1; auto. apply nth_error_Some. congruence.
Qed.
Lemma iwf_locals is n d : inits_wf is -> inits_wf (Model.define_locals is n d).
Proof.
  intros [H1 H2 H3]. unfold Model.define_locals.
  assert (Hw : 0 <= wrapu 32 (zlen (li_bits is)) <= U32MAX). { unfold wrapu, U32MAX. pose proof (Z.mod_pos_bound (zlen (li_bits is)) (2 ^ 32) ltac:(lia)). lia. }
  constructor; cbn [li_first li_log li_bits]; auto.
  - destruct (negb d && (li_first is =? U32MAX)); lia.
  - intros i Hi. destruct (H3 i Hi) as (H4 & H5). split.
    + destruct (negb d); cbn [andb]; auto. destruct (Z.eqb_spec (li_first is) U32MAX); auto. lia.
    + rewrite nth_error_app1; auto. apply nth_error_Some. congruence.
Qed.
Lemma iwf_empty : inits_wf inits_empty.
Proof. constructor; cbn; [unfold U32MAX; lia|constructor|intros i []]. Qed.
Lemma opnd_check_value_type E t : opnd (check_value_type E t).
Proof. apply (P_check_value_type E (@opnd)); intros; eauto using @opnd_ret, @opnd_bind, @opnd_panic, @opnd_fail, @opnd_lift, @opnd_get, opnd_push_maybe, opnd_pop_operand. Qed.
Lemma opsrel_ready s s' : opsrel s s' -> ready s -> ready s'.
Proof.
  intros [A1 A2 A3 A4 A5 A6] ([W1 W2 W3] & Hl). split.
  - constructor; rewrite ?A2, ?A3; auto.
  - rewrite Hl in A5. unfold ops_log in A5. destruct (vs_log s'); [contradiction|reflexivity].
Qed.
Lemma define_ready E count t s : ready s -> match define_locals E count t s with VOk _ s' | VErr _ s' => ready s' | VPanic => True end.
Proof.
  intros H. unfold define_locals, vbind. pose proof (opnd_check_value_type E t s) as Ho.
  destruct (check_value_type E t s) as [t' s1|e s1|]; auto; [|eapply opsrel_ready; eauto].
  pose proof (opsrel_ready _ _ Ho H) as ([W1 W2 W3] & Hl).
  destruct (count =? 0); [split; [constructor|]; auto|].
  destruct (define (vs_locals s1) count t') as [[] l].
  - split; [|exact Hl]. constructor; cbn; auto. apply iwf_locals, W1.
  - split; [constructor|]; auto.
Qed.
Theorem reachable_ready s : reachable s -> ready s.
Proof.
  induction 1 as [E ty s H|t|E count t s r s' _ IH Hr Hs|E o s r s' _ IH Hr Hs|E o s r s' _ IH Hr Hs].
  - unfold new_func in H. destruct (r_sub_type_at (e_res E) ty) as [t|]; [|discriminate].
    destruct (c_inner (s_comp t)); inversion H; subst; clear H. split; [|reflexivity]. constructor; cbn; auto.
    apply iwf_params, iwf_empty.
  - split; [|reflexivity]. constructor; cbn; auto. apply iwf_empty.
  - pose proof (define_ready E count t s IH) as H. rewrite Hr in H. destruct Hs as [->|(e & ->)]; exact H.
  - pose proof (op_ready E o s IH) as H. rewrite Hr in H. destruct Hs as [->|(e & ->)]; exact H.
  - pose proof (try_op_exact E o s IH) as H. pose proof (op_ready E o s IH) as H2.
    destruct (op E o s) as [a s1|e1 s1|]; rewrite Hr in H.
    + destruct Hs as [Hs|(e & Hs)]; rewrite Hs in H; inversion H; subst; auto.
    + destruct H as (tr & H). destruct Hs as [Hs|(e & Hs)]; rewrite Hs in H; inversion H; subst. destruct IH as (W & Hl). split; [apply wf_trace, W|exact Hl].
    + destruct Hs as [Hs|(e & Hs)]; rewrite Hs in H; inversion H.
Qed.

(** * The fast path of [pop_operand] *)
Theorem fast_path E s e : (forall v, r_is_subtype (e_res E) v v = true) -> pop_operand E e s = slow_pop_operand E e None s.
Proof.
  intros Hr. unfold pop_operand. destruct (vs_operands s) as [|t rest] eqn:Eo; [reflexivity|].
  pose proof (slow_some E e t s rest Eo) as Hs. destruct t as [|u|a]; auto. rewrite Hs.
  destruct e as [e|]; [|reflexivity]. destruct (val_eqb a e) eqn:Ev; [|reflexivity].
  destruct (vs_control s) as [|fr c] eqn:Ec; [reflexivity|].
  destruct (Nat.leb_spec (fr_height fr) (List.length rest)) as [Hh|Hh]; [|reflexivity].
  unfold slow_pop_operand. rewrite Ec, Eo. cbn [List.length].
  destruct (Nat.eqb_spec (S (List.length rest)) (fr_height fr)); [lia|]. cbn [andb].
  unfold val_eqb in Ev. destruct (vty_dec _ a e) as [->|]; [|discriminate].
  unfold check_operand, vbind, vcheck. rewrite Hr. reflexivity.
Qed.
