(** Operators of a fixed type: the validator pops their operands and pushes their results. *)
From Verif.Base Require Import Prelude.
From Verif.Locals Require Import Model.
From Verif.Types Require Import RefModel CodecModel CanonModel.
From Verif.Instr Require Import ImmModel Ops.
From Verif.Validator Require Import State Checks Visit Undo Sig TypeSpec TypeBase TypeSem TypeLook.

(** Operators with rules of their own. *)
Definition special (o : operator) : bool :=
  match o with
  | Op_Unreachable | Op_Drop | Op_Select | Op_LocalGet _ | Op_LocalSet _ | Op_LocalTee _ | Op_Br _ | Op_BrIf _ | Op_BrTable _ | Op_Return
  | Op_ReturnCall _ | Op_ReturnCallIndirect _ _ | Op_ReturnCallRef _ | Op_Throw _ | Op_ThrowRef
  | Op_RefIsNull | Op_RefAsNonNull | Op_BrOnNull _ | Op_BrOnNonNull _ | Op_BrOnCast _ _ _ | Op_BrOnCastFail _ _ _
  | Op_RefEq | Op_I31GetS | Op_I31GetU | Op_ArrayLen | Op_AnyConvertExtern | Op_ExternConvertAny => true
  | _ => false
  end.

Section Look.
Variable E : env.
Variable C : ctx.
Hypothesis HM : res_ok (cx_mod C).
Hypothesis HE : envok E C.
Notation meq := (meq C).
Definition by_sig (s : option (list val * list val)) : V unit :=
  match s with Some (ins, outs) => pops E ins ;; pushes outs | None => vpanic end.

Lemma pops_app a b s : pops E (a ++ b) s = (pops E b ;; pops E a) s.
Proof.
  unfold pops. rewrite rev_app_distr. generalize (rev b) as l, (rev a) as m. clear. intros l m. revert s.
  induction l as [|t l IH]; intros s; cbn [app vall]; [reflexivity|]. unfold vbind in *. destruct (pop E t s); auto.
Qed.
Lemma req f msg s : f <> f_custom_descriptors -> require E f msg s = VOk tt s.
Proof. intros H. unfold require. rewrite (eo_feat _ _ HE f H). reflexivity. Qed.
Lemma visit_gate o : covered o = true -> meq (visit E o) (visit_op E o).
Proof.
  intros Hc s Hs. unfold visit, vbind. destruct o; try discriminate Hc; clear Hc; cbn [gate]; try solve [apply same_refl]; rewrite req by discriminate; apply same_refl.
Qed.
(** Comparing sequences of pops and pushes. *)
Ltac straight := intros s Hs; unfold by_sig, pops, pushes, vbind, vret; cbn [rev app map vall]; unfold vbind, vret;
  repeat match goal with
  | |- context [pop E ?t ?s] => destruct (pop E t s) as [[] ?| |]; [|exact I..]
  | |- context [push_operand ?t ?s] => destruct (push_operand t s) as [[] ?| |]; [|exact I..]
  end; first [apply same_refl | exact I].
Ltac head t := match t with ?f _ => head f | _ => t end.
Ltac expose := repeat match goal with |- TypeLook.meq _ ?m _ =>
  let h := head m in lazymatch h with @vbind => fail | @vret => fail | pop => fail | push_operand => fail | _ => unfold h end end.
Lemma floats {A} (m : V A) R : meq m R -> meq (check_floats_enabled E ;; m) R.
Proof. intros H s Hs. unfold check_floats_enabled, vbind. rewrite req by discriminate. exact (H s Hs). Qed.
Lemma num_ok o i u : num_sig o = Some (i, u) -> meq (visit_op E o) (by_sig (num_sig o)).
Proof.
  intros H; destruct o; try discriminate H; clear H; cbn [visit_op num_sig].
  all: expose; try (apply floats; expose); straight.
Qed.

Lemma pop_wants t s m s' : pop_operand E (Some t) s = VOk m s' -> mt C m (DVal t).
Proof.
  rewrite (pop_any E C HM (eo_res _ _ HE)). unfold slow_pop_operand.
  assert (K : forall x s1, (check_operand E x (Some t) ;; vret x) s1 = VOk m s' -> mt C m (DVal t)).
  { intros x s1 H. unfold vbind, vret in H. pose proof (check_operand_ok E C HM (eo_res _ _ HE) x t s1) as P.
    destruct (check_operand E x (Some t) s1); try discriminate. injection H as -> _. apply P. }
  destruct (vs_control s) as [|fr rest]; [discriminate|]. destruct (_ && _); [eapply K|]. destruct (_ =? _)%nat; [discriminate|]. destruct (vs_operands s) as [|x ops]; [discriminate|]. apply K.
Qed.
Lemma pop_ref_ok (r : rf) s : same ((let! t := pop_ref E (Some r) in vret tt) s) (pop E (VRef r) s).
Proof.
  unfold pop_ref, pop, vbind, vret, val, rf. destruct (pop_operand E (Some (VRef r)) s) as [m s'| |] eqn:Ep; [|exact I..].
  pose proof (pop_wants _ _ _ _ Ep) as W. destruct m as [|t|v]; [cbn; auto..|]. unfold mt in W. cbn [least dsub] in W.
  destruct (sub_to_ref C HM _ _ W) as [x ->]. cbn. auto.
Qed.
Lemma meq_pop_ref {B D} (q : V B) (r : rf) (k : V D) R : meq (q ;; pop E (VRef r) ;; k) R -> meq (q ;; pop_ref E (Some r) ;; k) R.
Proof.
  intros H s Hs. specialize (H s Hs). unfold vbind in *. destruct (q s) as [b s1| |]; auto. pose proof (pop_ref_ok r s1) as P. unfold vbind, vret, rf, val in *.
  destruct (pop_ref E (Some r) s1) as [x s2| |], (pop E (VRef r) s1) as [y s3| |]; cbn in P; try tauto.
  destruct P as [_ ->]. exact H.
Qed.

End Look.
