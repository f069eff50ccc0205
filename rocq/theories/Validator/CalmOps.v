(** Every operator the reader gives is validated without a panic. *)
From Verif.Base Require Import Prelude.
From Verif.Locals Require Import Model Proofs.
From Verif.Types Require Import RefModel CodecModel CanonModel.
From Verif.Instr Require Import ImmModel Ops.
From Verif.Validator Require Import State Checks Visit Api Undo Generic Calm.

(** The immediates are those of the reader: packed types that can be unpacked, and indices into the types of the module. *)
Definition modular (h : hp) : Prop := match h with HA _ _ => True | HC u | HX u => exists i, u = UModule i end.
Definition ref_reads (r : Z) : Prop := exists x, of_ref r = Some x /\ modular (rt_heap x).
Definition reads_op (o : operator) : Prop :=
  match o with
  | Op_Block b | Op_Loop b | Op_If b | Op_Try b => block_reads b
  | Op_TryTable t => block_reads (pt_ty t)
  | Op_TypedSelect t => of_val t <> None
  | Op_BrOnCast _ a b | Op_BrOnCastFail _ a b | Op_BrOnCastDescEq _ a b | Op_BrOnCastDescEqFail _ a b => ref_reads a /\ ref_reads b
  | Op_RefCastDescEqNonNull h | Op_RefCastDescEqNullable h => modular (of_heap h)
  | _ => True
  end.

Section Env.
Variable E : env.
Hypothesis HR : sane (e_res E).
Notation R := (e_res E).
Notation calm := (calm E). Notation ok := (calm any).

Lemma c_all {A} (f : A -> V unit) l : (forall a, ok (f a)) -> ok (vall f l). Proof. intros H. apply calm_all. auto. Qed.
Ltac src := lazymatch goal with
  | |- Calm.calm _ _ (func_type_at _ _) => apply (calm_func_type_at E HR)
  | |- Calm.calm _ _ (cont_type_at _ _) => apply (calm_cont_type_at E HR)
  | |- Calm.calm _ _ (func_type_of_cont_type _ _) => apply (calm_func_of_cont E HR); assumption
  | |- Calm.calm _ _ (params _ _) => apply (calm_params E HR)
  | |- Calm.calm _ _ (results _ _) => apply (calm_results E HR); assumption
  | |- Calm.calm _ _ (label_types _ _ _) => apply (calm_label_types E HR); assumption
  | |- Calm.calm _ _ (jump _ _) => apply (calm_jump E)
  | |- Calm.calm _ _ (outermost_results _) => apply (calm_outermost E HR)
  | |- Calm.calm _ _ (check_heap_type _ _) => apply (calm_check_heap E HR)
  | |- Calm.calm _ _ (check_ref_type _ _) => apply (calm_check_ref E HR)
  | |- Calm.calm _ _ (check_value_type _ _) => apply (calm_check_value E HR)
  | |- Calm.calm _ _ (check_block_type _ _) => apply (calm_block_type E HR); assumption
  | |- Calm.calm _ _ (sub_type_at _ _) => apply (calm_sub_type_at E HR)
  | |- Calm.calm _ _ (vunwrap (r_new _ _)) => apply calm_new; intuition assumption
  end.
Ltac head t := lazymatch t with ?f _ => head f | _ => t end.
Ltac leaf := lazymatch goal with
  | |- Calm.calm _ _ (vret _) => apply calm_ret; exact I
  | |- Calm.calm _ _ (vfail _ _) => apply calm_fail
  | |- Calm.calm _ _ (vcheck _ _ _) => apply calm_check
  | |- Calm.calm _ _ (require _ _ _) => apply calm_require
  | |- Calm.calm _ _ (push_maybe _) => apply calm_push_maybe
  | |- Calm.calm _ _ (push_operand _) => apply calm_push
  | |- Calm.calm _ _ (pop_operand _ _) => apply calm_pop_operand
  | |- Calm.calm _ _ (pop _ _) => apply calm_pop
  | |- Calm.calm _ _ (pops _ _) => apply calm_pops
  | |- Calm.calm _ _ (pushes _) => apply calm_pushes
  | |- Calm.calm _ _ (pop_list _ _) => apply calm_pop_list
  | |- Calm.calm _ _ (match_operands _ _ _) => apply calm_match_operands
  | |- Calm.calm _ _ (ref_to _ _ _) => apply (calm_ref_to E HR)
  | |- Calm.calm _ _ (local _ _) => apply calm_local
  | |- Calm.calm _ _ (visit_local_get _ _) => apply calm_local_get
  | |- Calm.calm _ _ (vget _) => apply calm_get
  | |- Calm.calm _ _ (feature_check_ref_type _ _) => apply calm_feature_ref
  | |- Calm.calm _ _ (vsome _ _ _) => apply calm_some; intros; exact I
  | |- Calm.calm _ _ (vlift _) => eapply calm_ok; apply calm_lift
  | _ => eapply calm_ok; src
  end.
Ltac step :=
  match goal with
  | |- calm any (match ?x with _ => _ end) => destruct x
  | |- calm any (let '(_, _) := ?x in _) => destruct x
  | |- calm any (vbind _ _) => first [eapply calm_bind; [solve [src]|intros ? ?; cbv beta in * |-] | apply (calm_bind E any any); [|intros ? _]]
  | |- calm any (vall _ _) => apply c_all; intro
  | _ => solve [leaf]
  | |- calm any ?t => let h := head t in unfold h; cbv beta zeta
  end.
Ltac go := repeat step.

(** ** Where there is a panic *)
Lemma fine_new n h : fine_heap E h -> exists r, r_new n h = Some r. Proof. intros [_ H]. apply H. Qed.
Lemma o_call_ref i : calm (known_fn E) (check_call_ref_ty E i).
Proof.
  unfold check_call_ref_ty. eapply calm_bind; [src|]. intros h [H _]. eapply calm_bind; [apply (calm_new E true h H)|]. intros r _.
  apply (calm_bind E any); [go|]. intros _ _. src.
Qed.
Lemma o_downcast n h : ok (check_downcast E n h).
Proof.
  unfold check_downcast. eapply calm_bind; [src|]. intros h' [H _]. apply (calm_bind E any); [go|]. intros r _. apply (calm_bind E any); [go|]. intros _ _.
  apply (calm_bind E any). { apply calm_unwrap. destruct (sn_top _ HR h') as [x Hx]; [intros n'; apply (fine_new n' h' H)|]. exists x. split; [exact Hx|exact I]. }
  intros. go.
Qed.
Lemma o_ref_null h : ok (visit_ref_null E h).
Proof.
  unfold visit_ref_null. apply (calm_bind E any); [go|]. intros _ _. eapply calm_bind; [src|]. intros h' [H _]. eapply calm_bind; [apply (calm_new E true h' H)|]. intros r _. go.
Qed.
Lemma o_descriptor h : modular h -> calm (fun _ => is_concrete h) (check_descriptor E h).
Proof.
  unfold check_descriptor. destruct h as [sh t|u|u]; cbn [modular is_concrete]; [intros _; apply calm_fail| |].
  all: intros (i & ->); eapply calm_bind; [apply (calm_ret E any); exact I|]; intros j _; eapply calm_bind; [src|]; intros t (_ & _ & H);
    destruct (c_descriptor (s_comp t)) as [d|]; [|apply calm_fail]; destruct (H d eq_refl) as [id ->]; apply calm_ret; exact I.
Qed.
Lemma o_concrete_or_exact n i : ok (pop_concrete_or_exact_ref E n i). Proof. go. Qed.
Lemma o_maybe_exact h : modular h -> calm (fun _ => is_concrete h) (check_maybe_exact_descriptor_ref E h).
Proof.
  intros Hm. unfold check_maybe_exact_descriptor_ref. eapply calm_bind; [apply o_descriptor, Hm|]. intros d Hc. cbv beta in Hc.
  eapply calm_bind; [apply o_concrete_or_exact|]. intros tb _. destruct h as [sh t|u|u]; [apply calm_ret; exact Hc..|].
  eapply calm_bind; [src|]. intros dh [H _]. eapply calm_bind; [apply (calm_new E true dh H)|]. intros r _. apply (calm_bind E any); [go|]. intros _ _. apply calm_ret. exact Hc.
Qed.
Lemma o_cast_desc n h : modular (of_heap h) -> ok (check_ref_cast_desc_eq E n h).
Proof.
  intros Hm. unfold check_ref_cast_desc_eq. eapply calm_bind; [apply o_maybe_exact, Hm|]. intros ex Hc. cbv beta in Hc. apply (calm_bind E any); [apply o_downcast|]. intros _ _.
  eapply calm_bind; [src|]. intros h' [_ H]. specialize (H Hc). destruct h' as [sh t|u|u]; [destruct H| |]; go.
Qed.
Lemma o_cont_of_ref r : known_heap R (rt_heap r) -> rf_concrete r = true -> calm (known_cont E) (cont_type_of_ref E r).
Proof.
  intros Hk Hc. unfold cont_type_of_ref. unfold rf_concrete in Hc. destruct (rt_heap r) as [sh t|u|u]; [discriminate| |].
  all: destruct Hk as (id & t & -> & Ht); eapply calm_bind; [apply (calm_ret E (eq id)); reflexivity|]; intros ? <-;
    eapply calm_bind; [apply (calm_sub_type_at_id E HR _ _ Ht)|]; intros ? (-> & _ & H & _); destruct (c_inner (s_comp t)) as [| | |c]; try apply calm_fail; apply calm_ret; exact (H c eq_refl).
Qed.
Lemma next_back_known l l' v : next_back l = Some (l', v) -> Forall (known_val R) l -> Forall (known_val R) l' /\ known_val R v.
Proof.
  unfold next_back. destruct (rev l) as [|x r] eqn:Er; [discriminate|]. intros H Hl. injection H as <- <-.
  assert (X : Forall (known_val R) (x :: r)) by (rewrite <- Er; apply Forall_rev; exact Hl). inversion X; subst. split; [apply Forall_rev; assumption|assumption].
Qed.
Lemma checked b msg (k : V unit) : (b = true -> ok k) -> ok (vcheck E b msg ;; k).
Proof. intros H. unfold vcheck. destruct b; [apply (calm_bind E any); [apply calm_ret; exact I|]; intros; apply H; reflexivity|intros s Hs; exact I]. Qed.
Lemma o_handle old h : known_fn E old -> ok (check_handle E old h).
Proof.
  intros Ho. unfold check_handle. destruct h as [tag label|tag]; [|go]. apply (calm_bind E any); [go|]. intros tt' _. eapply calm_bind; [src|]. intros j Hj. cbv beta in Hj.
  eapply calm_bind; [src|]. intros tys Ht. destruct (next_back tys) as [[l v]|] eqn:En; [|apply calm_fail]. destruct (next_back_known _ _ _ En Ht) as [_ Hv]. destruct v as [| | | | |ct]; try apply calm_fail.
  apply checked. intros Hc. apply (calm_bind E any); [go|]. intros _ _. eapply calm_bind; [apply (o_cont_of_ref ct Hv Hc)|]. intros c Hcc. eapply calm_bind; [src|]. intros new Hn. go.
Qed.
Lemma o_resume_table l i : calm (known_fn E) (check_resume_table E l i).
Proof.
  unfold check_resume_table. eapply calm_bind; [src|]. intros c Hc. eapply calm_bind; [src|]. intros old Ho. apply (calm_bind E any); [apply c_all; intros h; apply o_handle, Ho|].
  intros _ _. apply calm_ret. exact Ho.
Qed.
Lemma o_switch i t : ok (visit_switch E i t).
Proof.
  unfold visit_switch. eapply calm_bind; [src|]. intros c Hc. eapply calm_bind; [src|]. intros f Hf. apply (calm_bind E any); [go|]. intros tg _. apply (calm_bind E any); [go|]. intros _ _.
  destruct (next_back (fn_params f)) as [[l v]|] eqn:En; [|apply calm_fail]. destruct (next_back_known _ _ _ En (proj1 Hf)) as [_ Hv]. destruct v as [| | | | |ct]; try apply calm_fail.
  apply checked. intros Hcr. eapply calm_bind; [apply (o_cont_of_ref ct Hv Hcr)|]. intros c2 Hc2. eapply calm_bind; [src|]. intros f2 Hf2. go.
Qed.
Lemma o_cont_bind i j : ok (visit_cont_bind E i j).
Proof.
  unfold visit_cont_bind. eapply calm_bind; [src|]. intros c Hc. eapply calm_bind; [src|]. intros f Hf. eapply calm_bind; [src|]. intros c2 Hc2. eapply calm_bind; [src|]. intros f2 Hf2. go.
Qed.
Lemma o_typed_select t : of_val t <> None -> ok (visit_typed_select E t).
Proof. intros H. unfold visit_typed_select. destruct (of_val t) as [v|]; [|congruence]. apply (calm_bind E any); [apply calm_ret; exact I|]. intros v' _. eapply calm_bind; [src|]. intros. go. Qed.
Lemma o_hierarchy a b : ok (check_br_on_cast_type_hierarchy E a b). Proof. go. Qed.
Lemma o_br_on_cast descr d a b : ref_reads a -> ref_reads b -> ok (br_on_cast E descr d a b).
Proof.
  intros (f & Hf & _) (t & Ht & Hm). unfold br_on_cast. rewrite Hf, Ht. cbn [vunwrap]. eapply calm_bind; [apply (calm_ret E (eq f)); reflexivity|]. intros ? <-.
  eapply calm_bind; [apply (calm_ret E (eq t)); reflexivity|]. intros ? <-. cbv zeta. eapply calm_bind; [src|]. intros f' _. eapply calm_bind; [src|]. intros t' _.
  apply (calm_bind E any); [apply o_hierarchy|]. intros _ _. apply (calm_bind E any). { destruct descr; [|go]. apply (calm_bind E any); [eapply calm_ok; apply o_maybe_exact, Hm|]. intros. go. }
  intros _ _. go.
Qed.
Lemma o_br_on_cast_fail descr d a b : ref_reads a -> ref_reads b -> ok (br_on_cast_fail E descr d a b).
Proof.
  intros (f & Hf & _) (t & Ht & Hm). unfold br_on_cast_fail. rewrite Hf, Ht. cbn [vunwrap]. eapply calm_bind; [apply (calm_ret E (eq f)); reflexivity|]. intros ? <-.
  eapply calm_bind; [apply (calm_ret E (eq t)); reflexivity|]. intros ? <-. cbv zeta. eapply calm_bind; [src|]. intros f' _. eapply calm_bind; [src|]. intros t' _.
  apply (calm_bind E any); [apply o_hierarchy|]. intros _ _. apply (calm_bind E any). { destruct descr; [|go]. apply (calm_bind E any); [eapply calm_ok; apply o_maybe_exact, Hm|]. intros. go. }
  intros _ _. go.
Qed.
Ltac src ::= lazymatch goal with
  | |- Calm.calm _ _ (func_type_at _ _) => apply (calm_func_type_at E HR)
  | |- Calm.calm _ _ (cont_type_at _ _) => apply (calm_cont_type_at E HR)
  | |- Calm.calm _ _ (func_type_of_cont_type _ _) => apply (calm_func_of_cont E HR); assumption
  | |- Calm.calm _ _ (params _ _) => apply (calm_params E HR)
  | |- Calm.calm _ _ (results _ _) => apply (calm_results E HR); assumption
  | |- Calm.calm _ _ (label_types _ _ _) => apply (calm_label_types E HR); assumption
  | |- Calm.calm _ _ (jump _ _) => apply (calm_jump E)
  | |- Calm.calm _ _ (outermost_results _) => apply (calm_outermost E HR)
  | |- Calm.calm _ _ (check_heap_type _ _) => apply (calm_check_heap E HR)
  | |- Calm.calm _ _ (check_ref_type _ _) => apply (calm_check_ref E HR)
  | |- Calm.calm _ _ (check_value_type _ _) => apply (calm_check_value E HR)
  | |- Calm.calm _ _ (check_block_type _ _) => apply (calm_block_type E HR); assumption
  | |- Calm.calm _ _ (sub_type_at _ _) => apply (calm_sub_type_at E HR)
  | |- Calm.calm _ _ (vunwrap (r_new _ _)) => apply calm_new; intuition assumption
  | |- Calm.calm _ _ (check_call_ref_ty _ _) => apply o_call_ref
  | |- Calm.calm _ _ (check_resume_table _ _ _) => apply o_resume_table
  end.
Ltac leaf ::= lazymatch goal with
  | |- Calm.calm _ _ (vret _) => apply calm_ret; exact I
  | |- Calm.calm _ _ (vfail _ _) => apply calm_fail
  | |- Calm.calm _ _ (vcheck _ _ _) => apply calm_check
  | |- Calm.calm _ _ (require _ _ _) => apply calm_require
  | |- Calm.calm _ _ (push_maybe _) => apply calm_push_maybe
  | |- Calm.calm _ _ (push_operand _) => apply calm_push
  | |- Calm.calm _ _ (pop_operand _ _) => apply calm_pop_operand
  | |- Calm.calm _ _ (pop _ _) => apply calm_pop
  | |- Calm.calm _ _ (pops _ _) => apply calm_pops
  | |- Calm.calm _ _ (pushes _) => apply calm_pushes
  | |- Calm.calm _ _ (pop_list _ _) => apply calm_pop_list
  | |- Calm.calm _ _ (match_operands _ _ _) => apply calm_match_operands
  | |- Calm.calm _ _ (ref_to _ _ _) => apply (calm_ref_to E HR)
  | |- Calm.calm _ _ (local _ _) => apply calm_local
  | |- Calm.calm _ _ (visit_local_get _ _) => apply calm_local_get
  | |- Calm.calm _ _ (vget _) => apply calm_get
  | |- Calm.calm _ _ (feature_check_ref_type _ _) => apply calm_feature_ref
  | |- Calm.calm _ _ (vsome _ _ _) => apply calm_some; intros; exact I
  | |- Calm.calm _ _ (vlift _) => eapply calm_ok; apply calm_lift
  | |- Calm.calm _ _ (check_downcast _ _ _) => apply o_downcast
  | |- Calm.calm _ _ (visit_ref_null _ _) => apply o_ref_null
  | |- Calm.calm _ _ (visit_switch _ _ _) => apply o_switch
  | |- Calm.calm _ _ (visit_cont_bind _ _ _) => apply o_cont_bind
  | |- Calm.calm _ _ (pop_concrete_or_exact_ref _ _ _) => apply o_concrete_or_exact
  | _ => eapply calm_ok; src
  end.
Lemma o_struct i : ok (struct_type_at E i). Proof. go. Qed.
Lemma o_struct_field i f : ok (struct_field_at E i f). Proof. go. Qed.
Lemma o_mut_field i f : ok (mutable_struct_field_at E i f). Proof. go. Qed.
Lemma o_array i : ok (array_type_at E i). Proof. go. Qed.
Lemma o_mut_array i : ok (mutable_array_type_at E i). Proof. go. Qed.
Lemma o_memarg m : ok (check_memarg E m). Proof. go. Qed.
Lemma o_shared_memarg m : ok (check_shared_memarg E m). Proof. go. Qed.
Lemma o_push_exact n i : ok (push_exact_ref_if_available E n i). Proof. go. Qed.
Lemma o_pop_concrete n i : ok (pop_concrete_ref E n i). Proof. go. Qed.
Lemma o_table i : ok (table_type_at E i). Proof. go. Qed.
Lemma o_global i : ok (global_type_at E i). Proof. go. Qed.
Lemma o_floats  : ok (check_floats_enabled E). Proof. go. Qed.
Lemma o_cmp t : ok (check_cmp_op E t). Proof. go. Qed.
Lemma o_unary t : ok (check_unary_op E t). Proof. go. Qed.
Lemma o_binary t : ok (check_binary_op E t). Proof. go. Qed.
Lemma o_conv t u : ok (check_conversion_op E t u). Proof. go. Qed.
Lemma o_srmw op i f : ok (check_struct_atomic_rmw E op i f). Proof. go. Qed.
Lemma o_armw op i : ok (check_array_atomic_rmw E op i). Proof. go. Qed.
Lemma o_vu  : ok (check_v128_unary_op E). Proof. go. Qed.
Lemma o_vb  : ok (check_v128_binary_op E). Proof. go. Qed.
Lemma o_vt  : ok (check_v128_ternary_op E). Proof. go. Qed.
Lemma o_popref t : ok (pop_ref E t). Proof. go. Qed.
Lemma o_msr t : ok (pop_maybe_shared_ref E t). Proof. go. Qed.
Ltac leaf ::= lazymatch goal with
  | |- Calm.calm _ _ (vret _) => apply calm_ret; exact I
  | |- Calm.calm _ _ (vfail _ _) => apply calm_fail
  | |- Calm.calm _ _ (vcheck _ _ _) => apply calm_check
  | |- Calm.calm _ _ (require _ _ _) => apply calm_require
  | |- Calm.calm _ _ (push_maybe _) => apply calm_push_maybe
  | |- Calm.calm _ _ (push_operand _) => apply calm_push
  | |- Calm.calm _ _ (pop_operand _ _) => apply calm_pop_operand
  | |- Calm.calm _ _ (pop _ _) => apply calm_pop
  | |- Calm.calm _ _ (pops _ _) => apply calm_pops
  | |- Calm.calm _ _ (pushes _) => apply calm_pushes
  | |- Calm.calm _ _ (pop_list _ _) => apply calm_pop_list
  | |- Calm.calm _ _ (match_operands _ _ _) => apply calm_match_operands
  | |- Calm.calm _ _ (ref_to _ _ _) => apply (calm_ref_to E HR)
  | |- Calm.calm _ _ (local _ _) => apply calm_local
  | |- Calm.calm _ _ (visit_local_get _ _) => apply calm_local_get
  | |- Calm.calm _ _ (vget _) => apply calm_get
  | |- Calm.calm _ _ (feature_check_ref_type _ _) => apply calm_feature_ref
  | |- Calm.calm _ _ (vsome _ _ _) => apply calm_some; intros; exact I
  | |- Calm.calm _ _ (vlift _) => eapply calm_ok; apply calm_lift
  | |- Calm.calm _ _ (check_downcast _ _ _) => apply o_downcast
  | |- Calm.calm _ _ (visit_ref_null _ _) => apply o_ref_null
  | |- Calm.calm _ _ (visit_switch _ _ _) => apply o_switch
  | |- Calm.calm _ _ (visit_cont_bind _ _ _) => apply o_cont_bind
  | |- Calm.calm _ _ (pop_concrete_or_exact_ref _ _ _) => apply o_concrete_or_exact
  | |- Calm.calm _ _ (check_memarg _ _) => apply o_memarg
  | |- Calm.calm _ _ (check_shared_memarg _ _) => apply o_shared_memarg
  | |- Calm.calm _ _ (struct_field_at _ _ _) => apply o_struct_field
  | |- Calm.calm _ _ (mutable_struct_field_at _ _ _) => apply o_mut_field
  | |- Calm.calm _ _ (array_type_at _ _) => apply o_array
  | |- Calm.calm _ _ (mutable_array_type_at _ _) => apply o_mut_array
  | |- Calm.calm _ _ (struct_type_at _ _) => apply o_struct
  | |- Calm.calm _ _ (push_exact_ref_if_available _ _ _) => apply o_push_exact
  | |- Calm.calm _ _ (pop_concrete_ref _ _ _) => apply o_pop_concrete
  | |- Calm.calm _ _ (table_type_at _ _) => apply o_table
  | |- Calm.calm _ _ (global_type_at _ _) => apply o_global
  | |- Calm.calm _ _ (check_floats_enabled _) => apply o_floats
  | |- Calm.calm _ _ (check_cmp_op _ _) => apply o_cmp
  | |- Calm.calm _ _ (check_unary_op _ _) => apply o_unary
  | |- Calm.calm _ _ (check_binary_op _ _) => apply o_binary
  | |- Calm.calm _ _ (check_conversion_op _ _ _) => apply o_conv
  | |- Calm.calm _ _ (check_struct_atomic_rmw _ _ _ _) => apply o_srmw
  | |- Calm.calm _ _ (check_array_atomic_rmw _ _ _) => apply o_armw
  | |- Calm.calm _ _ (check_v128_unary_op _) => apply o_vu
  | |- Calm.calm _ _ (check_v128_binary_op _) => apply o_vb
  | |- Calm.calm _ _ (check_v128_ternary_op _) => apply o_vt
  | |- Calm.calm _ _ (pop_maybe_shared_ref _ _) => apply o_msr
  | |- Calm.calm _ _ (pop_ref _ _) => apply o_popref
  | _ => eapply calm_ok; src
  end.
Theorem o_plain o : plain_op o = true -> reads_op o -> ok (visit_op E o).
Proof.
  destruct o; intros H Hr; try discriminate H; clear H; cbn [visit_op reads_op] in *.
  all: try lazymatch goal with
    | |- Calm.calm _ _ (visit_typed_select _ _) => apply o_typed_select; exact Hr
    | |- Calm.calm _ _ (visit_ref_cast_desc_eq_non_null _ _) => apply o_cast_desc; exact Hr
    | |- Calm.calm _ _ (visit_ref_cast_desc_eq_nullable _ _) => apply o_cast_desc; exact Hr
    | |- Calm.calm _ _ (visit_br_on_cast _ _ _ _) => destruct Hr; apply o_br_on_cast; assumption
    | |- Calm.calm _ _ (visit_br_on_cast_desc_eq _ _ _ _) => destruct Hr; apply o_br_on_cast; assumption
    | |- Calm.calm _ _ (visit_br_on_cast_fail _ _ _ _) => destruct Hr; apply o_br_on_cast_fail; assumption
    | |- Calm.calm _ _ (visit_br_on_cast_desc_eq_fail _ _ _ _) => destruct Hr; apply o_br_on_cast_fail; assumption
    end.
  all: go.
Qed.
Lemma o_tag i : ok (exception_tag_at E i). Proof. go. Qed.
Lemma o_catch c : ok (check_catch E c). Proof. go. Qed.
Lemma o_stack l : ok (match_stack_operands E l). Proof. go. Qed.
Lemma o_same_results f : ok (check_func_type_same_results E f). Proof. go. Qed.
Lemma o_type_of i : ok (type_of_function E i). Proof. go. Qed.
Lemma o_indirect i j : ok (check_call_indirect_ty E i j). Proof. go. Qed.
End Env.
