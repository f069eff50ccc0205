(** Operators of a fixed type, continued: those that look something up. *)
From Verif.Base Require Import Prelude.
From Verif.Locals Require Import Model.
From Verif.Types Require Import RefModel CodecModel CanonModel.
From Verif.Instr Require Import ImmModel Ops.
From Verif.Validator Require Import State Checks Visit Undo Sig TypeSpec TypeBase TypeSem TypeLook TypeSig.


Section Look.
Variable E : env.
Variable C : ctx.
Hypothesis HM : res_ok (cx_mod C).
Hypothesis HE : envok E C.
Notation meq := (meq C).
Notation by_sig := (by_sig E).
Ltac straight := let s := fresh in let Hs := fresh in intros s Hs; unfold TypeSig.by_sig, pops, pushes, vbind, vret; cbn [rev app map vall]; unfold vbind, vret;
  repeat match goal with
  | |- context [pop E ?t ?s] => destruct (pop E t s) as [[] ?| |]; [|exact I..]
  | |- context [push_operand ?t ?s] => destruct (push_operand t s) as [[] ?| |]; [|exact I..]
  end; first [apply same_refl | exact I].
Ltac head t := match t with ?f _ => head f | _ => t end.
Ltac expose := repeat match goal with |- TypeLook.meq _ ?m _ =>
  let h := head m in lazymatch h with @vbind => fail | @vret => fail | pop => fail | push_operand => fail | _ => unfold h end end.
(** The general case: lookups are drawn to the front. *)
Ltac lookup := lazymatch goal with |- look _ ?p _ =>
  lazymatch p with
  | check_memarg _ _ => apply look_memarg
  | check_shared_memarg _ _ => apply look_shared_memarg
  | check_memory_index _ _ => apply look_mem
  | vcheck _ _ _ => apply look_check
  | mutable_struct_field_at _ _ _ => apply look_mut_field
  | mutable_array_type_at _ _ => apply look_mut_array
  | struct_field_at _ _ _ => apply look_field
  | array_type_at _ _ => apply look_array
  | struct_type_at _ _ => apply look_struct
  | func_type_at _ _ => apply look_func
  | table_type_at _ _ => apply look_table
  | global_type_at _ _ => apply look_global
  | element_type_at _ _ => apply look_element
  | check_data_segment _ _ => apply look_data
  | ref_to _ _ _ => apply look_reference
  | type_of_function _ _ => apply look_function
  | no_descriptor _ _ _ => apply look_no_descriptor
  | check_cast_to_allowed _ _ => apply look_cast
  | check_heap_type _ _ => apply look_heap
  | check_value_type _ _ => apply look_value_type
  | feature_check_ref_type _ _ => apply look_feature_ref
  | vunwrap _ => apply look_unwrap
  | vsome _ _ _ => apply look_some
  | vret _ => apply look_ret
  | vfail _ _ => apply look_fail
  | require _ _ _ => apply look_require; [|discriminate]
  end end; assumption.
Ltac keep := repeat first [(apply keeps_opnd; first [apply opnd_pop | apply opnd_push | apply opnd_pops | apply opnd_pushes]) | apply keeps_ret | apply keeps_seq].
Ltac tidy H := unfold mutable, guard in H;
  repeat match type of H with context [match ?x with _ => _ end] => destruct x eqn:? end;
  try discriminate H; try (injection H as <-).
Lemma packed_i32 (f : sty uidx) : is_packed f = true -> st_unpack f = VI32. Proof. destruct f; [reflexivity..|discriminate]. Qed.
Ltac more t := let h := head t in unfold h; cbv beta; rewrite ?(eo_exact _ _ HE).
Ltac known := unfold TypeSig.by_sig, guard, tb_index, unpacked, storage, is_ref, Checks.sub, TypeSpec.sub in *; rewrite ?(eo_res _ _ HE) in *; repeat match goal with H : ?x = _ |- context [?x] => rewrite H end.
Ltac finish := known; repeat match goal with H : is_packed _ = true |- _ => rewrite (packed_i32 _ H); clear H end; cbn [app negb andb orb];
  repeat (match goal with |- TypeLook.meq _ _ ?R => match R with context [match ?x with _ => _ end] => lazymatch x with context [match _ with _ => _ end] => fail | _ => destruct x eqn:? end end end; try congruence); straight.
Ltac go := cbv beta iota;
  lazymatch goal with
  | |- TypeLook.meq _ (_ ;; vret tt) _ => finish
  | |- TypeLook.meq _ (_ ;; vbind ?p ?k) _ =>
    lazymatch p with
    | vbind _ _ => apply meq_assoc_in; go
    | pop _ _ => apply meq_assoc; go
    | push_operand _ => apply meq_assoc; go
    | pops _ _ => apply meq_assoc; go
    | pushes _ => apply meq_assoc; go
    | pop_operand _ (Some _) => apply meq_pop; go
    | pop_ref _ (Some _) => apply meq_pop_ref; go
    | match ?x with _ => _ end => destruct x eqn:?; go
    | _ => tryif (eapply meq_pull; [keep|lookup| |])
           then (let H := fresh "L" in intros; match goal with H : _ = _ |- _ => tidy H end; go) else (more p; go)
    end
  | |- TypeLook.meq _ (_ ;; ?p) _ =>
    lazymatch p with
    | pop _ _ => finish
    | push_operand _ => finish
    | pops _ _ => finish
    | pushes _ => finish
    | match ?x with _ => _ end => destruct x eqn:?; go
    | _ => tryif (eapply meq_pull_last; [keep|lookup| |])
           then (let H := fresh "L" in intros; match goal with H : _ = _ |- _ => tidy H end; go) else (more p; go)
    end
  | |- TypeLook.meq _ vpanic _ => finish
  | |- TypeLook.meq _ _ _ => apply meq_start; go
  end.
Lemma lane_ok o x : lane_sig o = Some x -> num_sig o = None -> meq (visit_op E o) (by_sig (sig C o)).
Proof.
  intros H K; destruct o; try discriminate H; try discriminate K; clear H K; unfold sig; cbn [visit_op num_sig lane_sig mem_sig].
  all: go.
Qed.
Lemma mem_ok o x : mem_sig o = Some x -> num_sig o = None -> lane_sig o = None -> meq (visit_op E o) (by_sig (sig C o)).
Proof.
  intros H K K'; destruct o; try discriminate H; try discriminate K; try discriminate K'; clear H K K'; unfold sig; cbn [visit_op num_sig lane_sig mem_sig].
  all: go.
Qed.
Ltac straight_pops := let s := fresh in let Hs := fresh in intros s Hs; unfold vbind, vret, pushes; cbn [vall]; unfold vbind, vret;
  repeat match goal with
  | |- context [pops E ?t ?s] => destruct (pops E t s) as [[] ?| |]; [|exact I..]
  | |- context [push_operand ?t ?s] => destruct (push_operand t s) as [[] ?| |]; [|exact I..]
  end; first [apply same_refl | exact I].
Lemma rev_repeat {A} (x : A) n : rev (repeat x n) = repeat x n.
Proof.
  assert (K : forall m, repeat x m ++ [x] = x :: repeat x m) by (induction m as [|m IH]; [reflexivity|cbn [repeat app]; rewrite IH; reflexivity]).
  induction n as [|n IH]; [reflexivity|]. cbn [repeat rev]. rewrite IH. apply K.
Qed.
Ltac one := apply meq_start; eapply meq_pull; [keep|lookup|intros; match goal with H : _ = _ |- _ => tidy H end|intros; match goal with H : _ = _ |- _ => tidy H end; try finish].
Ltac next := eapply meq_pull; [keep|lookup|intros; match goal with H : _ = _ |- _ => tidy H end|intros; match goal with H : _ = _ |- _ => tidy H end; try finish].
Lemma struct_new_ok i : meq (visit_op E (Op_StructNew i)) (by_sig (sig C (Op_StructNew i))).
Proof.
  unfold sig; cbn [visit_op num_sig lane_sig mem_sig other_sig]; unfold new_type, plain_struct, visit_struct_new.
  one. next. apply meq_assoc. unfold push_exact_ref_if_available, push_exact_ref, push_concrete_ref. rewrite (eo_exact _ _ HE).
  destruct (cx_exact C); next; known; straight_pops.
Qed.
Lemma look_defaultable fs : look C (all_defaultable E fs) (guard (forallb (fun f => is_defaultable (storage f)) fs) (Some tt)).
Proof. apply look_all. intros f. apply look_check. Qed.
Lemma struct_new_default_ok i : meq (visit_op E (Op_StructNewDefault i)) (by_sig (sig C (Op_StructNewDefault i))).
Proof.
  unfold sig; cbn [visit_op num_sig lane_sig mem_sig other_sig]; unfold new_type, plain_struct, visit_struct_new_default.
  one. next. eapply meq_pull; [keep|apply look_defaultable| |].
  - unfold guard. destruct (forallb _ _) eqn:F; [|discriminate]. intros u _. unfold push_exact_ref_if_available, push_exact_ref, push_concrete_ref. rewrite (eo_exact _ _ HE).
    destruct (cx_exact C); next; known; straight.
  - unfold guard. destruct (forallb _ _) eqn:F; [discriminate|]. intros _. rewrite H. destruct (reference C _); [rewrite F|]; straight.
Qed.
Lemma array_new_fixed_ok i n : meq (visit_op E (Op_ArrayNewFixed i n)) (by_sig (sig C (Op_ArrayNewFixed i n))).
Proof.
  unfold sig; cbn [visit_op num_sig lane_sig mem_sig other_sig]; unfold new_type, visit_array_new_fixed.
  one. rewrite <- (rev_repeat (unpacked _)). fold (pops E (repeat (unpacked a) (Z.to_nat n))).
  apply meq_assoc. unfold push_exact_ref_if_available, push_exact_ref, push_concrete_ref. rewrite (eo_exact _ _ HE).
  destruct (cx_exact C); next; known; straight_pops.
Qed.
Lemma array_copy_ok i j : meq (visit_op E (Op_ArrayCopy i j)) (by_sig (sig C (Op_ArrayCopy i j))).
Proof.
  unfold sig; cbn [visit_op num_sig lane_sig mem_sig other_sig]; unfold ref_type, visit_array_copy.
  one. next. rewrite H. unfold storage_sub. cbn [andb].
  destruct (fd_elem f), (fd_elem a); go.
Qed.
Lemma downcast_ok n h : look C (let! h := check_heap_type E (of_heap h) in
    let! sub_ty := vsome E (r_new n h) "implementation limit: type index too large" in
    check_cast_to_allowed E (r_top_type (e_res E) h) ;;
    let! sup_ty := vunwrap (r_new true (r_top_type (e_res E) h)) in vret (VRef sup_ty, VRef sub_ty)) (cast_types C n h).
Proof.
  unfold cast_types, reference. cbn [rt_heap rt_null]. eapply look_eq.
  - eapply look_bind; [apply look_heap; assumption|]. intros x. eapply look_bind; [apply look_some|]. intros y. eapply look_bind; [apply look_cast; assumption|].
    intros z. eapply look_bind; [apply look_unwrap|]. intros w. apply look_ret.
  - rewrite (eo_res _ _ HE). destruct (resolve C (of_heap h)) as [x|]; [|reflexivity]. destruct (r_new n x) as [r|] eqn:R; [|reflexivity].
    assert (K : rt_heap r = x) by (unfold r_new in R; destruct x; [|destruct (packs _)..]; try discriminate; injection R as <-; reflexivity).
    rewrite K. unfold castable, guard. rewrite (ro_top _ HM). destruct (match r_top_type _ x with HA _ Cont => false | _ => true end); reflexivity.
Qed.
Lemma downcast_eq n h (k : rf -> V unit) R :
  meq (let! p := (let! h := check_heap_type E (of_heap h) in
    let! sub_ty := vsome E (r_new n h) "implementation limit: type index too large" in
    check_cast_to_allowed E (r_top_type (e_res E) h) ;;
    let! sup_ty := vunwrap (r_new true (r_top_type (e_res E) h)) in vret (sup_ty, sub_ty)) in
    pop E (VRef (fst p)) ;; k (snd p)) R -> meq (let! r := check_downcast E n (of_heap h) in k r) R.
Proof.
  intros H s Hs. specialize (H s Hs). unfold check_downcast, vbind, vret in *.
  destruct (check_heap_type E (of_heap h) s) as [x s1| |]; auto.
  destruct (vsome E (r_new n x) _ s1) as [y s2| |]; auto.
  destruct (check_cast_to_allowed E _ s2) as [z s3| |]; auto.
  destruct (vunwrap _ s3) as [w s4| |]; auto. cbn [fst snd] in H.
  pose proof (pop_ref_ok E C HM HE w s4) as P. unfold vbind, vret, rf, val in *.
  destruct (pop_ref E (Some w) s4) as [v s5| |], (pop E (VRef w) s4) as [v' s6| |]; cbn in P; try tauto.
  destruct P as [_ ->]. exact H.
Qed.
Lemma look_downcast n h : look C (let! h := check_heap_type E (of_heap h) in
    let! sub_ty := vsome E (r_new n h) "implementation limit: type index too large" in
    check_cast_to_allowed E (r_top_type (e_res E) h) ;;
    let! sup_ty := vunwrap (r_new true (r_top_type (e_res E) h)) in vret (sup_ty, sub_ty))
    (match cast_types C n h with Some (VRef a, VRef b) => Some (a, b) | _ => None end).
Proof.
  intros s Hs. pose proof (downcast_ok n h s Hs) as P. unfold vbind, vret in *.
  destruct (check_heap_type E (of_heap h) s) as [x s1| |]; [|rewrite P; reflexivity..].
  destruct (vsome E (r_new n x) _ s1) as [y s2| |]; [|rewrite P; reflexivity..].
  destruct (check_cast_to_allowed E _ s2) as [z s3| |]; [|rewrite P; reflexivity..].
  destruct (vunwrap _ s3) as [w s4| |]; [|rewrite P; reflexivity..].
  destruct P as [-> ->]. auto.
Qed.
Lemma cast_types_ref n h a b : cast_types C n h = Some (a, b) -> exists x y, a = VRef x /\ b = VRef y.
Proof.
  unfold cast_types, guard. destruct (reference C _); [|discriminate]. destruct (castable C _); [|discriminate]. destruct (r_new true _); [|discriminate].
  intros H. injection H as <- <-. eauto.
Qed.
Lemma ref_test_ok n h : meq (check_ref_test E n h) (by_sig (match cast_types C n h with Some (top, _) => Some ([top], [VI32]) | None => None end)).
Proof.
  unfold check_ref_test. apply (downcast_eq n h (fun _ => push_operand VI32)). apply meq_start. eapply meq_pull; [keep|apply look_downcast| |].
  - intros [x y] H. destruct (cast_types C n h) as [[a b]|] eqn:D; [|discriminate]. destruct (cast_types_ref _ _ _ _ D) as (x' & y' & -> & ->).
    injection H as -> ->. cbn [fst snd]. straight.
  - intros H. destruct (cast_types C n h) as [[a b]|] eqn:D; [|straight]. destruct (cast_types_ref _ _ _ _ D) as (x' & y' & -> & ->). discriminate.
Qed.
Lemma ref_cast_ok n h : meq (check_ref_cast E n h) (by_sig (match cast_types C n h with Some (top, r) => Some ([top], [r]) | None => None end)).
Proof.
  unfold check_ref_cast. apply (downcast_eq n h (fun r => push_operand (VRef r))). apply meq_start. eapply meq_pull; [keep|apply look_downcast| |].
  - intros [x y] H. destruct (cast_types C n h) as [[a b]|] eqn:D; [|discriminate]. destruct (cast_types_ref _ _ _ _ D) as (x' & y' & -> & ->).
    injection H as -> ->. cbn [fst snd]. straight.
  - intros H. destruct (cast_types C n h) as [[a b]|] eqn:D; [|straight]. destruct (cast_types_ref _ _ _ _ D) as (x' & y' & -> & ->). discriminate.
Qed.
Lemma memory_copy_ok d m : meq (visit_op E (Op_MemoryCopy d m)) (by_sig (sig C (Op_MemoryCopy d m))).
Proof.
  unfold sig; cbn [visit_op num_sig lane_sig mem_sig other_sig]; unfold visit_memory_copy.
  one; next; next. rewrite H, H0.
  unfold sig_mem in H, H0. destruct (r_memory_at _ d) as [x|]; [|discriminate]. destruct (r_memory_at _ m) as [y|]; [|discriminate].
  injection H as <-. injection H0 as <-. destruct x, y; cbn [index_type addr_min]; go.
Qed.
Lemma table_copy_ok d m : meq (visit_op E (Op_TableCopy d m)) (by_sig (sig C (Op_TableCopy d m))).
Proof.
  unfold sig; cbn [visit_op num_sig lane_sig mem_sig other_sig]; unfold visit_table_copy.
  one; next; next. rewrite H, H0. unfold tb_index. destruct (tb_64 a), (tb_64 a0); cbn [index_type addr_min]; go.
Qed.
Lemma typed_select_ok t : meq (visit_op E (Op_TypedSelect t)) (by_sig (sig C (Op_TypedSelect t))).
Proof.
  unfold sig; cbn [visit_op num_sig lane_sig mem_sig other_sig]; unfold visit_typed_select, value.
  one. eapply meq_pull; [keep|apply look_value_type; assumption| |]; intros K; intros; try rewrite K; try rewrite H; go.
Qed.
Lemma shuffle_ok l : meq (visit_op E (Op_I8x16Shuffle l)) (by_sig (sig C (Op_I8x16Shuffle l))).
Proof.
  unfold sig; cbn [visit_op num_sig lane_sig mem_sig other_sig]; unfold visit_i8x16_shuffle. apply meq_start. apply meq_assoc, meq_assoc.
  eapply meq_pull; [keep|apply (look_all C _ (fun l => l <? 32)); intros; apply look_check| |].
  - intros u H. unfold guard in *. destruct (forallb _ l); [|discriminate]. straight.
  - intros H. unfold guard in *. destruct (forallb _ l); [discriminate|]. straight.
Qed.
Lemma ref_null_ok h : meq (visit_op E (Op_RefNull h)) (by_sig (sig C (Op_RefNull h))).
Proof.
  unfold sig; cbn [visit_op num_sig lane_sig mem_sig other_sig]; unfold visit_ref_null.
  destruct (r_new true (of_heap h)) as [r|] eqn:R.
  - assert (K : r = mkR true (of_heap h)) by (unfold r_new in R; destruct (of_heap h); [|destruct (packs _)..]; try discriminate; injection R as <-; reflexivity).
    subst r. unfold reference. cbn [rt_heap rt_null]. one. next. next. go.
  - apply meq_start. eapply meq_pull; [keep|apply look_ret| |]; [|discriminate]. intros _ _. unfold reference. cbn [rt_heap rt_null]. next.
    exfalso. unfold resolve in H. destruct (r_check_heap_type _ _ 0) eqn:K in H; [|discriminate]. pose proof (ro_index _ HM _ _ _ K) as P.
    unfold r_new in R. destruct (of_heap h); try discriminate; rewrite P in R; discriminate.
Qed.
Definition listed (o : operator) : bool := match num_sig o, lane_sig o, mem_sig o with None, None, None => false | _, _, _ => true end.
Definition is_call (o : operator) : bool := match o with Op_Call _ | Op_CallIndirect _ _ | Op_CallRef _ => true | _ => false end.
Lemma other_ok o : covered o = true -> special o = false -> listed o = false -> is_call o = false -> meq (visit_op E o) (by_sig (sig C o)).
Proof.
  intros Hc Hs Hl Hd; destruct o; try discriminate Hc; try discriminate Hs; try discriminate Hl; try discriminate Hd; clear Hc Hs Hl Hd;
    first [ apply struct_new_ok | apply struct_new_default_ok | apply array_new_fixed_ok | apply array_copy_ok | apply ref_test_ok | apply ref_cast_ok
          | apply memory_copy_ok | apply table_copy_ok | apply typed_select_ok | apply shuffle_ok | apply ref_null_ok | idtac ];
    unfold sig; cbn [visit_op num_sig lane_sig mem_sig other_sig]; unfold ref_type, new_type;
    first [solve [go] | destruct (cx_exact C) eqn:X; go].
Qed.
Lemma call_eq top f s : same ((pops E top ;; check_call_ty E f) s) (by_sig (Some (fn_params f ++ top, fn_results f)) s).
Proof. cbn [TypeSig.by_sig]. unfold vbind at 2. rewrite pops_app. unfold check_call_ty, vbind. destruct (pops E top s) as [[] s1| |]; cbn; auto. destruct (pops E (fn_params f) s1) as [[] s2| |]; cbn; auto. apply same_refl. Qed.
Lemma same_trans {A} (a b c : vres A) : same a b -> same b c -> same a c.
Proof. destruct a, b, c; cbn; try tauto. intros [-> ->] [-> ->]. auto. Qed.
Lemma call_eq1 t f s : same (((vret tt ;; pop E t) ;; check_call_ty E f) s) (by_sig (Some (fn_params f ++ [t], fn_results f)) s).
Proof.
  pose proof (call_eq [t] f s) as P. revert P. generalize (by_sig (Some (fn_params f ++ [t], fn_results f)) s). intros r.
  unfold pops. cbn [rev app vall]. unfold vbind, vret. destruct (pop E t s) as [[] s1| |]; auto.
Qed.
Lemma look_callee_ref t : look C (let! h := check_heap_type E (HC (UModule t)) in vunwrap (r_new true h))
   (match ref_type C true t with Some (VRef r) => Some r | _ => None end).
Proof.
  eapply look_eq; [eapply look_bind; [apply look_heap; assumption|intros; apply look_unwrap]|].
  unfold ref_type, reference. cbn [rt_heap rt_null]. destruct (resolve C _); [|reflexivity]. destruct (r_new true h); reflexivity.
Qed.
Lemma call_ok o : is_call o = true -> meq (visit_op E o) (by_sig (sig C o)).
Proof.
  intros H; destruct o; try discriminate H; clear H; unfold sig; cbn [visit_op num_sig lane_sig mem_sig other_sig callee].
  - unfold visit_call. apply meq_start. eapply meq_pull; [keep|apply look_function; assumption| |].
    + intros f H. destruct (r_type_index_of_function _ _); [|discriminate]. rewrite H. intros s Hs. apply (call_eq []).
    + intros H. destruct (r_type_index_of_function _ _); [rewrite H|]; straight.
  - unfold visit_call_indirect, check_call_indirect_ty. apply meq_start. apply meq_assoc_in. next. rewrite H. apply meq_assoc_in.
    unfold Checks.sub. rewrite (eo_res _ _ HE). unfold TypeSpec.sub. next. apply meq_assoc_in. apply meq_assoc. next. rewrite H0.
    cbn [guard]. intros s Hs. apply call_eq1.
  - intros s Hs.
    assert (P : same (visit_call_ref E type_index s) ((vret tt ;; let! r := (let! h := check_heap_type E (HC (UModule type_index)) in vunwrap (r_new true h)) in
      let! f := (pop_ref E (Some r) ;; func_type_at E type_index) in check_call_ty E f) s)).
    { unfold visit_call_ref, check_call_ref_ty, vbind, vret. destruct (check_heap_type _ _ s); cbn; auto. destruct (vunwrap _ s0); cbn; auto. apply same_refl. }
    assert (Q : meq (vret tt ;; let! r := (let! h := check_heap_type E (HC (UModule type_index)) in vunwrap (r_new true h)) in
      let! f := (pop_ref E (Some r) ;; func_type_at E type_index) in check_call_ty E f)
      (by_sig match match ref_type C true type_index with Some r => match sig_func C type_index with Some f => Some ([r], f) | None => None end | None => None end with
        Some (top, f) => Some (fn_params f ++ top, fn_results f) | None => None end)).
    { eapply meq_pull; [keep|apply look_callee_ref| |].
      - intros r H. destruct (ref_type C true type_index) as [[| | | | |r']|]; try discriminate. injection H as ->.
        apply meq_assoc_in, meq_pop_ref, meq_assoc; try assumption. next. rewrite H. intros s1 Hs1. apply call_eq1.
      - intros H. unfold ref_type in *. destruct (reference C _); [discriminate|]. straight. }
    exact (same_trans _ _ _ P (Q s Hs)).
Qed.
(** Every operator of a fixed type: its operands popped, its results pushed. *)
Theorem visit_sig o : covered o = true -> special o = false -> meq (visit E o) (by_sig (sig C o)).
Proof.
  intros Hc Hs. assert (K : meq (visit_op E o) (by_sig (sig C o))).
  { destruct (num_sig o) as [[i u]|] eqn:N; [|destruct (lane_sig o) as [x|] eqn:L; [eapply lane_ok; eassumption|]].
    - pose proof (num_ok E C HE o i u N) as P. unfold sig. rewrite N in *. exact P.
    - destruct (mem_sig o) as [x|] eqn:M; [eapply mem_ok; eassumption|]. destruct (is_call o) eqn:D; [apply call_ok; exact D|].
      apply other_ok; auto. unfold listed. rewrite N, L, M. reflexivity. }
  intros s Hs'. pose proof (visit_gate E C HE o Hc s Hs') as P. specialize (K s Hs'). unfold same in *.
  destruct (visit E o s), (visit_op E o s); try contradiction; auto. destruct P as [-> ->]. exact K.
Qed.
End Look.
