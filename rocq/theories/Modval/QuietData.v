(** A [ref.func] in an expression for a number: the reference stays on the stack, and the expression is rejected ([insert_ref_func], core.rs:271-300). *)
From Verif.Base Require Import Prelude.
From Verif.Reader Require Import Model Spec Mono.
From Verif.Codec Require Import Kit Local.
From Verif.Types Require Import RefModel CodecModel EntityModel CanonModel.
From Verif.Instr Require Import ImmModel Ops Convert Imms BodyModel BodyProofs LocalInstr HonestInstr.
From Verif.Instr Require Visit.
From Verif.Sections Require Import SegModel.
From Verif.Validator Require Import State Checks Visit Api Body Module Generic Undo TypeBlocks TypeRun TypeKinds TypeFunc.
From Verif.Modval Require Import Model Spec Const.

Definition refm (m : maybe val) : Prop := match m with Known (VRef _) | UnknownRef _ => True | _ => False end.
Definition marked (s : vst) : Prop := Exists refm (vs_operands s).
Section Mark.
Variable E : env.
Definition numeric (t : val) : Prop := match t with VRef _ => False | _ => True end.
Hypothesis HE : forall r t, numeric t -> r_is_subtype (e_res E) (VRef r) t = false.
(** [m] leaves a reference on the stack; it keeps one that is there. *)
Definition marks {A} (m : V A) : Prop := forall s a s', m s = VOk a s' -> marked s'.
Definition holds {A} (m : V A) : Prop := forall s a s', m s = VOk a s' -> marked s -> marked s'.
Lemma marks_holds {A} (m : V A) : marks m -> holds m. Proof. intros H s a s' E0 _. exact (H _ _ _ E0). Qed.
Lemma marks_bind {A B} (m : V A) (k : A -> V B) : (forall a, marks (k a)) -> marks (vbind m k).
Proof. intros H s b s' E0. unfold vbind in E0. destruct (m s) as [a s1| |]; try discriminate. exact (H _ _ _ _ E0). Qed.
Lemma holds_bind {A B} (m : V A) (k : A -> V B) : holds m -> (forall a, holds (k a)) -> holds (vbind m k).
Proof. intros Hm H s b s' E0 M. unfold vbind in E0. destruct (m s) as [a s1| |] eqn:E1; try discriminate. exact (H _ _ _ _ E0 (Hm _ _ _ E1 M)). Qed.
Lemma holds_same {A} (m : V A) : (forall s a s', m s = VOk a s' -> s' = s) -> holds m.
Proof. intros H s a s' E0 M. rewrite (H _ _ _ E0). exact M. Qed.
Lemma holds_ret {A} (a : A) : holds (vret a). Proof. apply holds_same. intros s b s' H. injection H as _ <-. reflexivity. Qed.
Lemma holds_fail {A} msg : holds (vfail E msg : V A). Proof. intros s b s' H. discriminate. Qed.
Lemma holds_check b msg : holds (vcheck E b msg). Proof. unfold vcheck. destruct b; [apply holds_ret|apply holds_fail]. Qed.
Lemma holds_push_maybe t : holds (push_maybe t). Proof. intros s b s' H M. injection H as _ <-. unfold marked, record_push, log_map. cbn. destruct (vs_log s); apply Exists_cons_tl; exact M. Qed.
Lemma marks_push_maybe t : refm t -> marks (push_maybe t). Proof. intros Ht s b s' H. injection H as _ <-. unfold marked, record_push, log_map. cbn. destruct (vs_log s); apply Exists_cons_hd; exact Ht. Qed.
Lemma ops_record_pop t s : vs_operands (record_pop t s) = vs_operands s. Proof. unfold record_pop, record_any_pop, log_map. destruct (vs_log s); reflexivity. Qed.
Lemma check_number a t s u s' : numeric t -> check_operand E a (Some t) s = VOk u s' -> s' = s /\ ~ refm a.
Proof.
  intros Ht H. unfold check_operand, vcheck, vret, vfail in H. destruct a as [|k|k]; [injection H as _ <-; auto| |].
  - exfalso. destruct t; try discriminate. exact Ht.
  - destruct k as [| | | | |r]; [..|rewrite (HE r t Ht) in H; discriminate]; (destruct (r_is_subtype _ _ _); [|discriminate]); injection H as _ <-; auto.
Qed.
Lemma slow_number t p : numeric t -> forall s a s', slow_pop_operand E (Some t) p s = VOk a s' ->
  Exists refm (match p with Some t => t :: vs_operands s | None => vs_operands s end) -> marked s'.
Proof.
  intros Ht s a s' H M. unfold slow_pop_operand in H. cbv zeta in H. set (s0 := match p with Some t => with_operands s (t :: vs_operands s) | None => s end) in *.
  assert (M0 : marked s0) by (subst s0; unfold marked; destruct p; exact M). clearbody s0. clear M.
  destruct (vs_control s0) as [|fr c]; [discriminate|]. destruct (_ && _).
  - unfold vbind in H. destruct (check_operand E Bottom (Some t) (record_any_pop s0)) as [u s1| |] eqn:E1; try discriminate. destruct (check_number _ _ _ _ _ Ht E1) as [-> _]. injection H as _ <-. exact M0.
  - destruct (_ =? _)%nat; [discriminate|]. destruct (vs_operands s0) as [|ty rest] eqn:Eo; [discriminate|].
    unfold vbind in H. destruct (check_operand E ty (Some t) _) as [u s1| |] eqn:E1; try discriminate. destruct (check_number _ _ _ _ _ Ht E1) as [-> N]. injection H as _ <-.
    unfold marked in *. rewrite ops_record_pop. cbn. rewrite Eo in M0. inversion M0; subst; [contradiction|assumption].
Qed.
Lemma holds_pop_operand t : numeric t -> holds (pop_operand E (Some t)).
Proof.
  intros Ht s a s' H M. unfold pop_operand in H. unfold marked in M. destruct (vs_operands s) as [|[|k|k] rest] eqn:Eo.
  - eapply slow_number; [exact Ht|exact H|]. cbv beta iota. rewrite Eo. exact M.
  - eapply slow_number; [exact Ht|exact H|exact M].
  - eapply slow_number; [exact Ht|exact H|exact M].
  - cbv zeta in H. destruct (val_eqb k t) eqn:Ek; [|eapply slow_number; [exact Ht|exact H|exact M]].
    destruct (vs_control s) as [|fr c]; [eapply slow_number; [exact Ht|exact H|exact M]|]. destruct (_ <=? _)%nat; [|eapply slow_number; [exact Ht|exact H|exact M]].
    injection H as _ <-. unfold marked. rewrite ops_record_pop. cbn. inversion M as [? ? R|]; subst; [|assumption].
    exfalso. destruct k; try exact R. unfold val_eqb in Ek. destruct (vty_dec _ _ _) as [<-|]; [exact Ht|discriminate].
Qed.
Lemma holds_pop t : numeric t -> holds (pop E t). Proof. intros Ht. apply holds_bind; [apply holds_pop_operand; exact Ht|intros; apply holds_ret]. Qed.
Lemma holds_binary t : numeric t -> holds (check_binary_op E t).
Proof. intros Ht. unfold check_binary_op. apply holds_bind; [apply holds_pop; exact Ht|intros]. apply holds_bind; [apply holds_pop; exact Ht|intros]. apply holds_push_maybe. Qed.
Lemma marks_ref_to n h : marks (vbind (ref_to E n h) push_operand).
Proof.
  intros s a s' H. unfold ref_to, vbind in H. destruct (check_heap_type E h s) as [h' s1| |]; try discriminate. unfold vsome in H. destruct (r_new n h') as [r|]; [|discriminate].
  cbn [vret] in H. exact (marks_push_maybe (Known (VRef r)) I _ _ _ H).
Qed.
Lemma marks_exact n i : marks (push_exact_ref_if_available E n i).
Proof. unfold push_exact_ref_if_available, push_exact_ref, push_concrete_ref. destruct (e_feat E f_custom_descriptors); apply marks_ref_to. Qed.
Lemma holds_global i : holds (visit_global_get E i).
Proof.
  unfold visit_global_get. apply holds_bind; [|intros; apply holds_push_maybe]. unfold global_type_at. destruct (r_global_at _ _); [|apply holds_fail].
  apply holds_bind; [|intros; apply holds_ret]. unfold check_shared. apply holds_bind; [|intros; apply holds_check]. apply holds_same. intros s b s' H. injection H as _ <-. reflexivity.
Qed.

(** What is left after a constant operator. *)
Definition outer (t : val) (s : vst) : Prop := vs_control s = [mkFrame FBlock (BType t) 0 false 0].
Lemma end_rejects t s s' : numeric t -> outer t s -> visit_op E Op_End s = VOk tt s' -> marked s -> False.
Proof.
  intros Ht Ho H M. cbn [visit_op] in H. unfold visit_end, pop_ctrl, vbind, vget in H. rewrite Ho in H. cbn [fr_block results vret] in H.
  unfold pops, vbind in H. cbn [rev app vall] in H. unfold vbind in H. destruct (pop E t s) as [u s1| |] eqn:E1; try discriminate. cbn [vret] in H.
  pose proof (holds_pop t Ht s u s1 E1 M) as M1. cbn [fr_height] in H. unfold vcheck in H. unfold marked in M1. destruct (vs_operands s1) as [|x l]; [inversion M1|]. cbn in H. discriminate.
Qed.
Lemma end_control t s s' : outer t s -> visit_op E Op_End s = VOk tt s' -> vs_control s' = [].
Proof.
  intros Ho H. pose proof (op_kinds E Op_End s s') as K. unfold op, visit, vbind in K. cbn [gate vret] in K. specialize (K H). unfold kinds in K. rewrite Ho in K. cbn in K. destruct (vs_control s'); [reflexivity|discriminate].
Qed.
Lemma gate_state o s s' : op E o s = VOk tt s' -> visit_op E o s = VOk tt s'.
Proof.
  unfold op, visit, vbind. destruct (gate o) as [[f msg]|]; [|auto]. unfold require, vcheck. destruct (e_feat E f); [auto|discriminate].
Qed.
Lemma keeps_outer t o s s' : plain_op o = true -> outer t s -> visit_op E o s = VOk tt s' -> outer t s'.
Proof. intros Hp Ho H. pose proof (opnd_plain E o Hp s) as O. rewrite H in O. unfold outer. rewrite (or_control _ _ O). exact Ho. Qed.
(** After a constant operator other than [end] a reference on the stack is still there, and [ref.func] puts one there. *)
Lemma const_holds o : cop o = true -> o <> Op_End -> holds (visit_op E o) /\ (forall i, o = Op_RefFunc i -> marks (visit_op E o)).
Proof.
  intros Hc Hn. destruct o; try discriminate Hc; try congruence; (split; [|intros i Hi; try discriminate Hi]); cbn [visit_op];
    try (apply holds_push_maybe); try (apply holds_binary; exact I).
  all: try (unfold visit_f32_const, visit_f64_const; apply holds_bind; [apply holds_check|intros; apply holds_push_maybe]).
  all: try (apply holds_global).
  all: try (apply marks_holds; unfold visit_struct_new, visit_struct_new_default, visit_struct_new_desc, visit_struct_new_default_desc, visit_array_new, visit_array_new_default, visit_array_new_fixed; repeat (apply marks_bind; intros); apply marks_exact).
  all: try (apply marks_holds; unfold visit_ref_i31, visit_ref_i31_shared, visit_ref_null; repeat (apply marks_bind; intros); apply marks_push_maybe; exact I).
  all: try (apply marks_holds; unfold visit_any_convert_extern, visit_extern_convert_any; apply marks_bind; intros m; apply marks_push_maybe; destruct m; exact I).
  all: try apply marks_holds; unfold visit_ref_func; repeat (apply marks_bind; intros); apply marks_push_maybe; exact I.
Qed.
End Mark.

Section Loop.
Variable F : feature -> bool.
Variable G : m_feature -> bool.
Variable pos : Z.
Lemma module_numbers s m a : let E := mkEnv (module_resources s m) F a in forall r t, numeric t -> r_is_subtype (e_res E) (VRef r) t = false.
Proof. intros E r t Ht. cbn. unfold v_is_subtype. destruct (vty_dec _ _ _) as [<-|]; [destruct Ht|]. destruct t; try reflexivity. destruct Ht. Qed.
Lemma before_cop o x x1 : ms_frozen (fst x) = true -> const_before F G pos o x = Done x1 -> cop o = true /\ fst x1 = fst x /\ (snd x1 = snd x \/ exists i, o = Op_RefFunc i).
Proof.
  intros Hf H. unfold const_before in H. destruct o; try discriminate H; (split; [reflexivity|]).
  all: try (injection H as <-; auto; fail).
  all: try (first [destruct (need F pos _ _) as [[]| |]|destruct (needm G pos _ _) as [[]| |]|destruct (const_global F pos _ _) as [[]| |]]; cbn [obind] in H; try discriminate; injection H as <-; auto).
  injection H as <-. unfold insert_ref. rewrite Hf. eauto.
Qed.
Definition fine (t : val) (v : vst) (x : mstate * bool) : Prop := (vs_control v = [] /\ snd x = false) \/ (outer t v /\ (snd x = true -> marked v)).
Lemma frozen_loop t : numeric t -> forall fuel r v c x ops c' r' y, cs_list c = kinds v -> cs_wf c -> good r -> ms_frozen (fst x) = true -> fine t v x ->
  ops_collect fuel c r = Ok ((ops, c'), r') -> cs_list c' = [] -> const_loop F G pos fuel r v x = Done y -> snd y = false.
Proof.
  intros Ht. induction fuel as [|n IH]; intros r v c x ops c' r' y Hc Hw Hg Hf Hx; cbn [ops_collect const_loop]; destruct (eof r) eqn:Ee.
  1,3: intros H Hz K; injection H as _ <- _; injection K as <-; (destruct Hx as [[_ Hx]|[Ho _]]; [exact Hx|]); exfalso; rewrite Hc in Hz; unfold kinds in Hz; rewrite Ho in Hz; discriminate.
  { discriminate. }
  unfold ops_read, bind. rewrite current_kinds, <- Hc, last_list.
  destruct (Verif.Instr.Visit.visit_operator (hd_error (cs_list c)) r) as [[o r1]|e] eqn:Er; [|discriminate].
  unfold ret. cbn [of_read obind fst snd]. destruct (read_op_ok _ _ _ _ Hg Er) as (k & Hk & Hfm & Hs).
  assert (Hg1 : good r1) by (eapply honest_good; [apply (honest_operator (hd_error (cs_list c)))|exact Er|exact Hg]).
  assert (Hl : exists t, cs_list c = k :: t) by (destruct (cs_list c); [discriminate|injection Hk as ->; eauto]). destruct Hl as (u & Hl).
  assert (Htop : exists k, cs_top c = Some k) by (unfold cs_list in Hl; destruct (cs_top c); [eauto|discriminate]).
  destruct (cs_visit_list o c Hw Htop) as [Hw1 Hl1].
  destruct Hx as [[Hx _]|[Ho Hm]]; [exfalso; rewrite Hc in Hl; unfold kinds in Hl; rewrite Hx in Hl; discriminate|].
  destruct (const_before F G pos o x) as [x1|e|] eqn:Eb; cbn [obind]; try discriminate.
  destruct (before_cop o x x1 Hf Eb) as (Hcop & Hfst & Hsnd).
  set (E := mkEnv _ F (original_position r)). assert (HE : forall r t, numeric t -> r_is_subtype (e_res E) (VRef r) t = false) by apply module_numbers.
  destruct (op E o v) as [[] v1|e v1|] eqn:Eo; cbn [of_visit obind]; try discriminate.
  pose proof (op_kinds E o v v1 Eo) as Hk1. pose proof (gate_state E o v v1 Eo) as Ev. clearbody E.
  destruct (ops_collect n (cs_visit o c) r1) as [[[ops1 c1] r2]|e] eqn:Ec; [|discriminate]. cbn [fst snd]. intros H Hz K. injection H as _ -> _.
  refine (IH r1 v1 (cs_visit o c) x1 ops1 c' r2 y _ Hw1 Hg1 _ _ Ec Hz K); [rewrite Hl1, Hc, <- Hk1; reflexivity|rewrite Hfst; exact Hf|].
  assert (De : o = Op_End \/ o <> Op_End) by (destruct o; first [left; reflexivity|right; discriminate]). destruct De as [->|De].
  - left. split; [exact (end_control E t v v1 Ho Ev)|]. destruct Hsnd as [Hsnd|(i & Hi)]; [|discriminate]. rewrite Hsnd. destruct (snd x); [|reflexivity].
    exfalso. exact (end_rejects E HE t v v1 Ht Ho Ev (Hm eq_refl)).
  - right. destruct (const_holds E HE o Hcop De) as [A B]. split; [apply (keeps_outer E t o v v1); [destruct o; try discriminate Hcop; try congruence; reflexivity|exact Ho|exact Ev]|].
    intros Hx1. destruct Hsnd as [Hsnd|(i & Hi)]; [apply (A _ _ _ Ev), Hm; congruence|exact (B i Hi _ _ _ Ev)].
Qed.
Lemma frozen_const ft st b t y : numeric t -> 0 < pos -> bytes_ok b -> d_expr ft pos b <> None -> ms_frozen st = true ->
  const_loop F G pos (List.length b) (new_reader ft b pos) (new_const_expr t) (st, false) = Done y -> snd y = false.
Proof.
  intros Ht Hp Hb Hd Hf H. destruct (d_expr ft pos b) as [ops|] eqn:Ed; [|congruence]. destruct (expr_collect _ _ _ _ Ed) as (c' & r' & Ec & Ek).
  refine (frozen_loop t Ht _ _ (new_const_expr t) cs_new (st, false) ops c' r' y eq_refl _ _ Hf _ Ec Ek H).
  - intros K; discriminate K.
  - split; [exact Hb|unfold original_position, new_reader; cbn [r_off r_pos]; lia].
  - right. split; [reflexivity|discriminate].
Qed.
End Loop.
