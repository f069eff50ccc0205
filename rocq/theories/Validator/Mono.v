(** Features only allow: what is accepted with some features is accepted with more. *)
From Verif.Base Require Import Prelude.
From Verif.Locals Require Import Model.
From Verif.Reader Require Import Model.
From Verif.Types Require Import RefModel CodecModel CanonModel.
From Verif.Instr Require Import ImmModel Ops.
From Verif.Validator Require Import State Checks Visit Api Body.

Section Mono.
Variable R : resources.
Variables F F' : feature -> bool.
Hypothesis more : forall f, F f = true -> F' f = true.
Hypothesis same : F f_custom_descriptors = F' f_custom_descriptors.
Section At.
Variable at_ : Z.
Notation E := (mkEnv R F at_).
Notation E' := (mkEnv R F' at_).
Definition le {A} (m m' : V A) : Prop := forall s a s', m s = VOk a s' -> m' s = VOk a s'.
Lemma le_refl {A} (m : V A) : le m m. Proof. intros s a s' H. exact H. Qed.
Lemma le_bind {A B} (m m' : V A) (k k' : A -> V B) : le m m' -> (forall a, le (k a) (k' a)) -> le (vbind m k) (vbind m' k').
Proof.
  intros Hm Hk s b s' H. unfold vbind in *. destruct (m s) as [a s1|e s1|] eqn:Em; try discriminate. rewrite (Hm _ _ _ Em). apply Hk. exact H.
Qed.
Lemma le_fail {A} msg (m : V A) : le (vfail E msg) m. Proof. intros s a s' H. discriminate. Qed.
Lemma le_panic {A} (m : V A) : le vpanic m. Proof. intros s a s' H. discriminate. Qed.
Lemma le_require f msg : le (require E f msg) (require E' f msg).
Proof. unfold require, vcheck. cbn [e_feat]. specialize (more f). destruct (F f); [rewrite more by reflexivity; apply le_refl | apply le_fail]. Qed.
Lemma le_all {A} (f g : A -> V unit) l : (forall a, le (f a) (g a)) -> le (vall f l) (vall g l).
Proof. intros H. induction l as [|a l IH]; [apply le_refl|]. cbn [vall]. apply le_bind; auto. Qed.
Lemma le_ref_type r : le (feature_check_ref_type E r) (feature_check_ref_type E' r).
Proof.
  unfold feature_check_ref_type. apply le_bind; [apply le_require |]. intros _. destruct (rt_heap r) as [sh t|u|u].
  - apply le_bind; [destruct sh; [apply le_require | apply le_refl] |]. intros _. apply le_bind; [destruct t; first [apply le_refl | apply le_require] |].
    intros _. destruct t, (rt_null r); first [apply le_refl | apply le_require].
  - cbn [e_feat]. destruct (F f_gc) eqn:G; [rewrite (more _ G); apply le_refl |].
    unfold require at 1, vcheck. cbn [e_feat]. destruct (F f_function_references) eqn:G2; [| apply le_fail].
    destruct (F' f_gc); [apply le_refl |]. unfold require, vcheck. cbn [e_feat]. rewrite (more _ G2). apply le_refl.
  - apply le_require.
Qed.
Ltac head t := lazymatch t with ?f _ => head f | _ => t end.
Ltac leaf := first [ apply le_require | apply le_fail | apply le_panic | apply le_ref_type | assumption | eassumption ].
Ltac settle := repeat first [ rewrite <- same | progress cbn [e_res e_feat e_at fst snd] ].
Ltac step :=
  first [ solve [apply le_refl] | settle;
  lazymatch goal with
  | |- le (match ?x with _ => _ end) _ => destruct x
  | |- le (vbind _ _) _ => apply le_bind; [|intro]
  | |- le (vall _ _) _ => apply le_all; intro
  | |- le ?t ?t' => first [ solve [leaf] | let h := head t in unfold h; cbv beta zeta ]
  end ].
Ltac go := repeat step.
Lemma le_value_type v : le (check_value_type E v) (check_value_type E' v). Proof. go. Qed.
Lemma le_block_type v : le (check_block_type E v) (check_block_type E' v). Proof. go. Qed.
Ltac leaf ::= first [ apply le_require | apply le_fail | apply le_panic | apply le_ref_type | apply le_value_type | apply le_block_type | assumption | eassumption ].
Lemma le_visit_op o : le (visit_op E o) (visit_op E' o).
Proof. destruct o; cbn [visit_op]. all: try solve [apply le_refl]. all: go. Qed.
Lemma le_visit o : le (visit E o) (visit E' o).
Proof. unfold visit. apply le_bind; [destruct (gate o) as [[f msg]|]; [apply le_require | apply le_refl] | intros _; apply le_visit_op]. Qed.
Lemma le_define count t : le (define_locals E count t) (define_locals E' count t).
Proof. unfold define_locals. apply le_bind; [apply le_value_type |]. intros v. destruct (count =? 0); [apply le_refl |]. intros s a s'. destruct (define _ _ _) as [[] l]; [auto | discriminate]. Qed.
End At.
Lemma le_locals n : forall r s x, locals_loop R F n r s = Done x -> locals_loop R F' n r s = Done x.
Proof.
  induction n as [|n IH]; intros r s x; cbn [locals_loop]; [auto |].
  destruct (read_var_u32 r) as [[count r1]|e]; cbn [of_read obind]; [| discriminate].
  destruct (read_val r1) as [[ty r2]|e]; cbn [of_read obind]; [| discriminate]. destruct (of_val ty) as [v|]; [| discriminate].
  destruct (define_locals (mkEnv R F (original_position r)) count v s) as [[] s1|e s1|] eqn:D; cbn [of_visit obind]; try discriminate.
  rewrite (le_define _ _ _ _ _ _ D). cbn [of_visit obind]. apply IH.
Qed.
Lemma le_ops n : forall r s x, ops_loop R F n r s = Done x -> ops_loop R F' n r s = Done x.
Proof.
  induction n as [|n IH]; intros r s x; cbn [ops_loop]; (destruct (eof r); [intros H; exact H |]); [discriminate |].
  destruct (Verif.Instr.Visit.visit_operator (current_frame s) r) as [[o r1]|e]; cbn [of_read obind]; [| discriminate].
  unfold op. destruct (visit (mkEnv R F (original_position r)) o s) as [[] s1|e s1|] eqn:D; cbn [of_visit obind]; try discriminate.
  rewrite (le_visit _ _ _ _ _ D). cbn [of_visit obind]. apply IH.
Qed.
Lemma validate_more ft start ty off bytes : validate R F ft start ty off bytes = Done tt -> validate R F' ft start ty off bytes = Done tt.
Proof.
  unfold validate. change (new_func (mkEnv R F' start) ty) with (new_func (mkEnv R F start) ty).
  destruct (new_func (mkEnv R F start) ty) as [s|e]; cbn [of_read obind]; [| discriminate].
  destruct (read_var_u32 (new_reader ft bytes off)) as [[n r]|e]; cbn [of_read obind]; [| discriminate].
  destruct (locals_loop R F (Z.to_nat n) r s) as [[r1 s1]|e|] eqn:L; cbn [obind]; try discriminate. rewrite (le_locals _ _ _ _ L). cbn [obind].
  destruct (ops_loop R F (List.length (r_rem r1)) r1 s1) as [[r2 s2]|e|] eqn:P; cbn [obind]; try discriminate. rewrite (le_ops _ _ _ _ P). auto.
Qed.
End Mono.
