(** An induction principle for validator programs: what holds of the primitives and is kept by sequencing
    holds of every operator. *)
From Verif.Base Require Import Prelude.
From Verif.Locals Require Import Model.
From Verif.Types Require Import RefModel CodecModel CanonModel.
From Verif.Instr Require Import ImmModel Ops.
From Verif.Validator Require Import State Checks Visit.

(** The operators that change the control stack, set a local or make the rest of the block unreachable. *)
Definition plain_op (o : operator) : bool :=
  match o with
  | Op_Unreachable | Op_Block _ | Op_Loop _ | Op_If _ | Op_Else | Op_End | Op_Br _ | Op_BrTable _ | Op_Return
  | Op_Try _ | Op_TryTable _ | Op_Throw _ | Op_ThrowRef | Op_Catch _ | Op_CatchAll | Op_Rethrow _ | Op_Delegate _
  | Op_ReturnCall _ | Op_ReturnCallIndirect _ _ | Op_ReturnCallRef _ | Op_LocalSet _ | Op_LocalTee _ => false
  | _ => true
  end.

Section Generic.
Variable E : env.
Variable P : forall A, V A -> Prop.
Arguments P {A}.
Hypothesis P_ret : forall A (a : A), P (vret a).
Hypothesis P_bind : forall A B (m : V A) (k : A -> V B), P m -> (forall a, P (k a)) -> P (vbind m k).
Hypothesis P_panic : forall A, P (vpanic : V A).
Hypothesis P_fail : forall A msg, P (vfail E msg : V A).
Hypothesis P_lift : forall A (r : res A), P (vlift r).
Hypothesis P_control : P (vget vs_control).
Hypothesis P_shared : P (vget vs_shared).
Hypothesis P_locals : P (vget vs_locals).
Hypothesis P_inits : P (vget vs_inits).
Hypothesis P_push : forall t, P (push_maybe t).
Hypothesis P_pop : forall t, P (pop_operand E t).

Lemma P_all A (f : A -> V unit) l : (forall a, P (f a)) -> P (vall f l).
Proof. intros H. induction l as [|a l IH]; [apply P_ret|]. cbn [vall]. apply P_bind; auto. Qed.
Ltac head t := lazymatch t with ?f _ => head f | _ => t end.
Ltac leaf := first
  [ apply P_ret | apply P_panic | apply P_fail | apply P_lift | apply P_push | apply P_pop
  | apply P_control | apply P_shared | apply P_locals | apply P_inits | assumption | eassumption ].
Ltac step :=
  match goal with
  | |- P (match ?x with _ => _ end) => destruct x
  | |- P (vbind _ _) => apply P_bind; [|intro]
  | |- P (vall _ _) => apply P_all; intro
  | _ => solve [leaf]
  | |- P (let '(_, _) := ?x in _) => destruct x
  | |- P ?t => let h := head t in unfold h; cbv beta zeta
  end.
Ltac go := repeat step.
Lemma P_pops l : P (pops E l). Proof. apply P_all. intros. go. Qed.
Lemma P_pushes l : P (pushes l). Proof. apply P_all. intros. go. Qed.
Lemma P_pop_list l : P (pop_list E l).
Proof. induction l as [|t l IH]; [apply P_ret|]. cbn [pop_list]. go. Qed.
Lemma P_match_operands a b : P (match_operands E a b).
Proof. revert b. induction a as [|t l IH]; intros [|u b]; try apply P_ret. cbn [match_operands]. apply P_bind; [go|intro]. auto. Qed.
Ltac leaf ::= first
  [ apply P_ret | apply P_panic | apply P_fail | apply P_lift | apply P_push | apply P_pop
  | apply P_pops | apply P_pushes | apply P_pop_list | apply P_match_operands
  | apply P_control | apply P_shared | apply P_locals | apply P_inits | assumption ].
Lemma P_func_type_at i : P (func_type_at E i). Proof. go. Qed.
Lemma P_params b : P (params E b). Proof. go. Qed.
Lemma P_results b : P (results E b). Proof. go. Qed.
Lemma P_label_types b k : P (label_types E b k). Proof. go. Qed.
Lemma P_jump d : P (jump E d). Proof. go. Qed.
Lemma P_check_heap_type h : P (check_heap_type E h). Proof. go. Qed.
Lemma P_check_value_type h : P (check_value_type E h). Proof. go. Qed.
Lemma P_check_block_type b : P (check_block_type E b). Proof. go. Qed.
Lemma P_ref_to n h : P (ref_to E n h). Proof. go. Qed.
Lemma P_memarg m : P (check_memarg E m). Proof. go. Qed.
Lemma P_check_catch c : P (check_catch E c). Proof. go. Qed.
Lemma P_exception_tag_at i : P (exception_tag_at E i). Proof. go. Qed.
Lemma P_stack_operands l : P (match_stack_operands E l). Proof. go. Qed.
Lemma P_outermost : P (outermost_results E). Proof. go. Qed.
Lemma P_same_results f : P (check_func_type_same_results E f). Proof. go. Qed.
Lemma P_type_of_function i : P (type_of_function E i). Proof. go. Qed.
Lemma P_call_indirect i j : P (check_call_indirect_ty E i j). Proof. go. Qed.
Lemma P_call_ref i : P (check_call_ref_ty E i). Proof. go. Qed.
Lemma P_local i : P (local E i). Proof. go. Qed.
Lemma P_pop_ t : P (pop E t). Proof. go. Qed.
Ltac leaf ::= first
  [ apply P_ret | apply P_panic | apply P_fail | apply P_lift | apply P_push | apply P_pop
  | apply P_pops | apply P_pushes | apply P_pop_list | apply P_match_operands
  | apply P_func_type_at | apply P_params | apply P_results | apply P_label_types | apply P_jump | apply P_check_heap_type
  | apply P_check_value_type | apply P_check_block_type | apply P_ref_to | apply P_memarg | apply P_check_catch
  | apply P_exception_tag_at | apply P_stack_operands | apply P_outermost | apply P_same_results | apply P_type_of_function
  | apply P_call_indirect | apply P_call_ref | apply P_local | apply P_pop_
  | apply P_control | apply P_shared | apply P_locals | apply P_inits | assumption ].
Lemma P_gate o : P (match gate o with Some (f, msg) => require E f msg | None => vret tt end). Proof. destruct (gate o) as [[f msg]|]; go. Qed.
(** ** Everything but control, locals and unreachable code *)
Theorem P_plain o : plain_op o = true -> P (visit_op E o).
Proof. destruct o; intros H; try discriminate H; clear H; cbn [visit_op]; go. Qed.

(** ** Everything but blocks *)
Definition flat_op (o : operator) : bool :=
  plain_op o ||
  match o with
  | Op_Unreachable | Op_Br _ | Op_BrTable _ | Op_Return | Op_Throw _ | Op_ThrowRef | Op_Rethrow _
  | Op_ReturnCall _ | Op_ReturnCallIndirect _ _ | Op_ReturnCallRef _ | Op_LocalSet _ | Op_LocalTee _ => true
  | _ => false
  end.
Hypothesis P_length : P (vget (fun s => List.length (vs_operands s))).
Hypothesis P_unreachable : P unreachable.
Hypothesis P_set_init : forall i, P (local_set_init i).
Ltac leaf ::= first
  [ apply P_ret | apply P_panic | apply P_fail | apply P_lift | apply P_push | apply P_pop
  | apply P_pops | apply P_pushes | apply P_pop_list | apply P_match_operands
  | apply P_func_type_at | apply P_params | apply P_results | apply P_label_types | apply P_jump | apply P_check_heap_type
  | apply P_check_value_type | apply P_check_block_type | apply P_ref_to | apply P_memarg | apply P_check_catch
  | apply P_exception_tag_at | apply P_stack_operands | apply P_outermost | apply P_same_results | apply P_type_of_function
  | apply P_call_indirect | apply P_call_ref | apply P_local | apply P_pop_
  | apply P_control | apply P_shared | apply P_locals | apply P_inits
  | apply P_length | apply P_unreachable | apply P_set_init | assumption ].
Theorem P_flat o : flat_op o = true -> P (visit_op E o).
Proof.
  destruct (plain_op o) eqn:H; [intros _; exact (P_plain o H)|].
  unfold flat_op. rewrite H. destruct o; try discriminate H; intros K; try discriminate K; clear H K; cbn [visit_op]; go.
Qed.

(** ** Every operator *)
Hypothesis P_bare : forall k b, P (push_bare_ctrl k b).
Hypothesis P_drop : P drop_ctrl.
Ltac leaf ::= first
  [ apply P_ret | apply P_panic | apply P_fail | apply P_lift | apply P_push | apply P_pop
  | apply P_pops | apply P_pushes | apply P_pop_list | apply P_match_operands
  | apply P_func_type_at | apply P_params | apply P_results | apply P_label_types | apply P_jump | apply P_check_heap_type
  | apply P_check_value_type | apply P_check_block_type | apply P_ref_to | apply P_memarg | apply P_check_catch
  | apply P_exception_tag_at | apply P_stack_operands | apply P_outermost | apply P_same_results | apply P_type_of_function
  | apply P_call_indirect | apply P_call_ref | apply P_local | apply P_pop_
  | apply P_control | apply P_shared | apply P_locals | apply P_inits
  | apply P_length | apply P_unreachable | apply P_bare | apply P_drop | apply P_set_init | assumption ].
Lemma P_visit_op o : P (visit_op E o).
Proof.
  destruct (plain_op o) eqn:H; [exact (P_plain o H)|].
  destruct o; try discriminate H; clear H; cbn [visit_op]; go.
Qed.
Theorem P_visit o : P (visit E o).
Proof. apply P_bind; [apply P_gate|]. intros _. apply P_visit_op. Qed.
End Generic.
