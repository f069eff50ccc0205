(** Properties C17 and C18: the function validator. *)
From Verif.Base Require Import Prelude.
From Verif.Locals Require Import Model.
From Verif.Types Require Import RefModel CodecModel CanonModel.
From Verif.Instr Require Import ImmModel Ops.
From Verif.Validator Require Import State Checks Visit Api Undo Top.

(** A module with the function types [] -> [], [i32] -> [i64] and [i32 (ref func)] -> [], one tag of the last type and no other item. *)
Definition nonnull_func : rf := abs false false Func.
Definition case_type (i : Z) : option (subty uidx) :=
  let f ps rs := Some (mkS true None (mkC (IFunc ps rs) false None None)) in
  if i =? 0 then f [] [] else if i =? 1 then f [VI32] [VI64] else if i =? 2 then f [VI32; VRef nonnull_func] [] else None.
Definition case_res : resources :=
  mkRes (fun _ => None) (fun _ => None) (fun i => if i =? 0 then Some (mkFn [VI32; VRef nonnull_func] []) else None) (fun _ => None)
    case_type case_type (fun _ => None) (fun _ => None) (fun _ => None) val_eqb (fun _ => false) (fun h _ => Ok h) (fun h => h) None
    (fun _ => false) (fun _ => false).
Definition case_env (at_ : Z) : env := mkEnv case_res (fun _ => true) at_.

(** C17: the fast path of popping an operand is the general path, in every state: same type, same error, same state after.
    Equal types are subtypes of each other in every module (C21_order). *)
Theorem C17_fast_path : forall E s expected, (forall v, r_is_subtype (e_res E) v v = true) ->
  pop_operand E expected s = slow_pop_operand E expected None s.
Proof. exact fast_path. Qed.
Print Assumptions C17_fast_path.
Example C17_case :
  (forall v, r_is_subtype (e_res (case_env 7)) v v = true) /\
  let frame h u := mkFrame FBlock BEmpty h u 0 in
  let s ops h u := mkVst locals_empty inits_empty ops [frame h u] false None [] in
  let pop e s := match pop_operand (case_env 7) e s with VOk t s => Some (inl (t, vs_operands s)) | VErr e _ => Some (inr e) | VPanic => None end in
  pop (Some VI32) (s [Known VI32; Known VI64] 0%nat false) = Some (inl (Known VI32, [Known VI64])) /\
  pop (Some VI32) (s [Known VI32] 1%nat true) = Some (inl (Bottom, [Known VI32])) /\
  pop (Some VI32) (s [Known VI32] 1%nat false) = Some (inr (err_new "type mismatch: expected {desc} but nothing on stack" 7)) /\
  pop (Some VI32) (s [Known VF32] 0%nat false) = Some (inr (err_new "type mismatch: expected {}, found {}" 7)).
Proof.
  split.
  - intros v. cbn. unfold val_eqb. destruct (vty_dec _ v v); congruence.
  - cbn zeta. repeat split; vm_compute; reflexivity.
Qed.

(** C18: trying an operator is validating it, except that nothing is left of one that is rejected but the debug
    log of pushes and pops.  [reachable] is every state a client can bring a validator to. *)
Definition unchanged (s s' : vst) : Prop := exists t, s' = with_trace s t.
Theorem C18_try_op : forall E o s, reachable s ->
  match op E o s with
  | VOk _ s' => try_op E o s = VOk tt s'
  | VErr e _ => exists s', try_op E o s = VErr e s' /\ unchanged s s'
  | VPanic => try_op E o s = VPanic
  end.
Proof.
  intros E o s H. pose proof (try_op_exact E o s (reachable_ready s H)) as T. destruct (op E o s); auto.
  destruct T as (t & T). exists (with_trace s t). split; [exact T|exists t; reflexivity].
Qed.
Print Assumptions C18_try_op.
(** The record kept suffices to undo an accepted operator too. *)
Theorem C18_undo_any : forall E o s s1, reachable s -> begin_try_op s = Some s1 ->
  match op E o s1 with VOk _ s2 | VErr _ s2 => exists s', rollback s2 = Some s' /\ unchanged s s' | VPanic => True end.
Proof.
  intros E o s s1 H Hb. pose proof (rollback_any E o s (reachable_ready s H)) as T.
  assert (Hs : s1 = started s). { unfold begin_try_op in Hb. destruct (vs_log s); inversion Hb; reflexivity. }
  subst s1. destruct (op E o (started s)); auto; destruct T as (t & T); exists (with_trace s t); split; auto; exists t; reflexivity.
Qed.
Print Assumptions C18_undo_any.

(** A function [i32 (ref func)] -> [] with a local of a type without default, set in the true branch of an [if] that gives
    an i64 for an i32: [end] closes the branch, opens the missing [else] and fails there, after the local was reset. *)
Definition case_run (l : list operator) (s : vst) : option vst :=
  fold_left (fun s o => match s with Some s => match op (case_env 9) o s with VOk _ s => Some s | _ => None end | None => None end) l (Some s).
Definition case_start : option vst :=
  match new_func (case_env 0) 2 with
  | Ok s => match define_locals (case_env 1) 3 (VRef nonnull_func) s with VOk _ s => Some s | _ => None end
  | Err _ => None
  end.
Definition case_state : option vst :=
  match case_start with
  | Some s => case_run [Op_LocalGet 1; Op_LocalSet 3; Op_LocalGet 0; Op_LocalGet 0; Op_If (PBFunc 1); Op_LocalGet 1; Op_LocalSet 2; Op_Drop; Op_I64Const 5] s
  | None => None
  end.
Lemma case_run_reachable l : forall s s', reachable s -> case_run l s = Some s' -> reachable s'.
Proof.
  unfold case_run. induction l as [|o l IH]; intros s s' Hr H; cbn [fold_left] in H; [inversion H; subst; exact Hr|].
  destruct (op (case_env 9) o s) as [[] s1|e s1|] eqn:Eo.
  - apply (IH s1); auto. eapply reach_op; eauto.
  - exfalso. revert H. generalize l. clear. intros l H. induction l; cbn in H; [discriminate|auto].
  - exfalso. revert H. generalize l. clear. intros l H. induction l; cbn in H; [discriminate|auto].
Qed.
Lemma case_state_reachable s : case_state = Some s -> reachable s.
Proof.
  unfold case_state, case_start. destruct (new_func (case_env 0) 2) as [s0|e] eqn:En; [|discriminate].
  destruct (define_locals (case_env 1) 3 (VRef nonnull_func) s0) as [[] s1|e s1|] eqn:Ed; try discriminate.
  apply case_run_reachable. eapply reach_locals; [eapply reach_func; exact En|exact Ed|auto].
Qed.
Example C18_case :
  match case_state with
  | Some s => reachable s /\
    List.length (vs_control s) = 2%nat /\ li_log (vs_inits s) = [3; 2] /\ vs_operands s = [Known VI64] /\
    match op (case_env 9) Op_End s with
    | VErr e s' => List.length (vs_operands s') = 0%nat /\ li_log (vs_inits s') = [3] /\ map fr_kind (vs_control s') = [FElse; FBlock]
    | _ => False
    end
  | None => False
  end.
Proof.
  destruct case_state as [s|] eqn:Es; [|vm_compute in Es; discriminate]. split; [exact (case_state_reachable s Es)|].
  vm_compute in Es. injection Es as <-. vm_compute. repeat split.
Qed.
