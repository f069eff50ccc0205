(** Operators that do not panic: what the state of the validator and the answers of the module have to be like. *)
From Verif.Base Require Import Prelude.
From Verif.Locals Require Import Model Proofs.
From Verif.Types Require Import RefModel CodecModel CanonModel.
From Verif.Instr Require Import ImmModel Ops.
From Verif.Validator Require Import State Checks Visit Api Undo.

(** * Answers of the module *)
Section Res.
Variable R : resources.
(** A heap type that names a type known by its id, and such that [RefType] can hold it. *)
Definition known_id (u : uidx) : Prop := exists id t, u = UId id /\ r_sub_type_at_id R id = Some t.
Definition known_heap (h : hp) : Prop := match h with HA _ _ => True | HC u | HX u => known_id u end.
Definition known_val (v : val) : Prop := match v with VRef r => known_heap (rt_heap r) | _ => True end.
Definition known_type (t : subty uidx) : Prop :=
  (forall ps rs, c_inner (s_comp t) = IFunc ps rs -> Forall known_val ps /\ Forall known_val rs) /\
  (forall c, c_inner (s_comp t) = ICont c -> exists id u ps rs, c = UId id /\ r_sub_type_at_id R id = Some u /\ c_inner (s_comp u) = IFunc ps rs) /\
  (forall d, c_descriptor (s_comp t) = Some d -> exists id, d = UId id).
Definition is_concrete (h : hp) : Prop := match h with HA _ _ => False | _ => True end.
Record sane : Prop := mkSane
  { sn_index : forall i t, r_sub_type_at R i = Some t -> known_type t;
    sn_id : forall i t, r_sub_type_at_id R i = Some t -> known_type t;
    sn_heap : forall h a h', r_check_heap_type R h a = Ok h' -> known_heap h' /\ (forall n, exists r, r_new n h' = Some r) /\ (is_concrete h -> is_concrete h');
    sn_top : forall h, (forall n, exists r, r_new n h = Some r) -> exists r, r_new true (r_top_type R h) = Some r }.
Definition known_block (b : block) : Prop := match b with BType v => known_val v | _ => True end.
End Res.

(** * States of the validator *)
Fixpoint stacked (c : list frame) (n m : nat) : Prop :=
  match c with [] => True | fr :: c => (fr_height fr <= n)%nat /\ (fr_init_height fr <= m)%nat /\ stacked c (fr_height fr) (fr_init_height fr) end.
(** The outermost frame is a plain block. *)
Fixpoint rooted (c : list frame) : Prop := match c with [] => True | fr :: [] => fr_kind fr = FBlock | _ :: c => rooted c end.
(** Every local has its bit. *)
Definition tracked (s : vst) : Prop := exists F, stands (vs_locals s) F /\ (List.length F <= List.length (li_bits (vs_inits s)))%nat.
Lemma get_none (l : locals val) i : stands l [] -> Model.get l i = None.
Proof.
  intros [_ _ Hf Hc Hr]. unfold Model.get. rewrite Hf. cbn [firstn]. destruct (Z.to_nat i); cbn [nth_error].
  all: destruct (l_uncached l) as [|[m t] u] eqn:Eu; [unfold get_bsearch; rewrite Eu; reflexivity|].
  all: exfalso; cbn [Proofs.runs climbing] in *; rewrite skipn_nil in Hr; destruct Hc as [Hc _]; replace (Z.to_nat (m + 1 - 50)) with (S (Z.to_nat (m - 50))) in Hr by lia; discriminate.
Qed.
Lemma tracked_get s i t : tracked s -> Model.get (vs_locals s) i = Some t -> (Z.to_nat i < List.length (li_bits (vs_inits s)))%nat.
Proof.
  intros (F & H1 & H2) Hg. destruct F as [|x F]; [rewrite (get_none _ _ H1) in Hg; discriminate|].
  destruct (Z.le_gt_cases 0 i) as [Hi|Hi].
  - rewrite (stands_get _ _ _ H1 Hi) in Hg. assert (Z.to_nat i < List.length (x :: F))%nat by (apply nth_error_Some; congruence). lia.
  - cbn [List.length] in H2. lia.
Qed.
Record calm_state (R : resources) (s : vst) : Prop := mkCalm
  { cs_stacked : stacked (vs_control s) (List.length (vs_operands s)) (inits_height (vs_inits s));
    cs_rooted : rooted (vs_control s);
    cs_blocks : Forall (fun fr => known_block R (fr_block fr)) (vs_control s);
    cs_tracked : tracked s }.

(** * Actions on operands *)
Section Env.
Variable E : env.
Let R := e_res E.
Hypothesis HR : sane R.
Definition K (s : vst) : Prop := calm_state R s /\ vs_control s <> [].
Definition calm {A} (Q : A -> Prop) (m : V A) : Prop := forall s, K s -> match m s with VOk a s' => K s' /\ Q a | VErr _ _ => True | VPanic => False end.
Definition any {A} : A -> Prop := fun _ => True.
Notation ok := (calm any).
Lemma calm_ret {A} (Q : A -> Prop) a : Q a -> calm Q (vret a). Proof. intros H s Hs. split; assumption. Qed.
Lemma calm_weaken {A} (P Q : A -> Prop) m : calm P m -> (forall a, P a -> Q a) -> calm Q m.
Proof. intros H W s Hs. specialize (H s Hs). destruct (m s); auto. destruct H. split; auto. Qed.
Lemma calm_ok {A} (Q : A -> Prop) m : calm Q m -> ok m. Proof. intros H. eapply calm_weaken; [exact H|]. intros; exact I. Qed.
Lemma calm_bind {A B} (P : A -> Prop) (Q : B -> Prop) m k : calm P m -> (forall a, P a -> calm Q (k a)) -> calm Q (vbind m k).
Proof. intros Hm Hk s Hs. unfold vbind. specialize (Hm s Hs). destruct (m s) as [a s1| |]; auto. destruct Hm as [H1 Ha]. exact (Hk a Ha s1 H1). Qed.
Lemma calm_fail {A} (Q : A -> Prop) msg : calm Q (vfail E msg). Proof. intros s _. exact I. Qed.
Lemma calm_lift {A} (r : res A) : calm (fun a => r = Ok a) (vlift r). Proof. intros s Hs. unfold vlift. destruct r; auto. Qed.
Lemma calm_get {A} (f : vst -> A) : ok (vget f). Proof. intros s Hs. split; [exact Hs|exact I]. Qed.
Lemma calm_control : calm (fun c => c <> [] /\ Forall (fun fr => known_block R (fr_block fr)) c) (vget vs_control).
Proof. intros s [Hs Hn]. split; [split; assumption|]. split; [exact Hn|apply (cs_blocks _ _ Hs)]. Qed.
Lemma calm_unwrap {A} (Q : A -> Prop) (o : option A) : (exists a, o = Some a /\ Q a) -> calm Q (vunwrap o).
Proof. intros (a & -> & H). apply calm_ret. exact H. Qed.
Lemma calm_some {A} (Q : A -> Prop) (o : option A) msg : (forall a, o = Some a -> Q a) -> calm Q (vsome E o msg).
Proof. intros H. destruct o; [apply calm_ret; auto|apply calm_fail]. Qed.
Lemma calm_check b msg : ok (vcheck E b msg). Proof. destruct b; [apply calm_ret; exact I|apply calm_fail]. Qed.
Lemma calm_all {A} (f : A -> V unit) l : (forall a, In a l -> ok (f a)) -> ok (vall f l).
Proof. induction l as [|a l IH]; intros H; [apply calm_ret; exact I|]. cbn [vall]. eapply calm_bind; [apply H; left; reflexivity|]. intros _ _. apply IH. intros b Hb. apply H. right. exact Hb. Qed.

Lemma stacked_le c n m n' m' : stacked c n m -> (n <= n')%nat -> (m <= m')%nat -> stacked c n' m'.
Proof. destruct c; cbn; [auto|]. intros (A & B & C) H1 H2. repeat split; try lia. exact C. Qed.
Lemma ops_calm s s' : vs_locals s' = vs_locals s -> vs_inits s' = vs_inits s -> vs_control s' = vs_control s ->
  above (vs_control s) (List.length (vs_operands s')) -> calm_state R s -> calm_state R s'.
Proof.
  intros A B C D [H1 H2 H3 H4]. constructor; unfold tracked; rewrite ?A, ?B, ?C; auto.
  destruct (vs_control s) as [|fr c]; [exact I|]. cbn in *. tauto.
Qed.
Lemma rel_calm s s' : opsrel s s' -> calm_state R s -> calm_state R s'.
Proof.
  intros O H. apply (ops_calm s s'); try apply O; [|exact H]. destruct H as [H _ _ _]. destruct (vs_control s); [exact I|]. cbn in *. tauto.
Qed.
Lemma K_rel s s' : opsrel s s' -> K s -> K s'.
Proof. intros O [H N]. split; [eapply rel_calm; eauto|]. rewrite (or_control _ _ O). exact N. Qed.
(** Actions known to change operands only: that they do not panic is enough. *)
Lemma calm_opnd {A} (m : V A) : opnd m -> (forall s, K s -> m s <> VPanic) -> ok m.
Proof.
  intros O N s Hs. specialize (O s). specialize (N s Hs). destruct (m s) as [a s'|e s'|]; [|exact I|congruence]. split; [eapply K_rel; eauto|exact I].
Qed.
Lemma calm_push_maybe t : ok (push_maybe t).
Proof. apply calm_opnd; [apply opnd_push_maybe|]. intros s _. discriminate. Qed.
Lemma check_operand_ok a e s : check_operand E a e s <> VPanic.
Proof.
  unfold check_operand, vcheck, vret, vfail. destruct e as [e|]; [|discriminate]. destruct a as [|t|t]; [discriminate| |destruct (r_is_subtype _ _ _); discriminate].
  destruct e; try discriminate. destruct t; [|discriminate]. destruct (r_is_subtype _ _ _); discriminate.
Qed.
Lemma slow_ok e s : K s -> slow_pop_operand E e None s <> VPanic.
Proof.
  intros [[H _ _ _] N]. unfold slow_pop_operand. destruct (vs_control s) as [|fr c]; [congruence|]. cbn in H.
  assert (Then : forall a (t : maybe val) s1, (check_operand E a e ;; vret t) s1 <> VPanic).
  { intros a t s1. unfold vbind. pose proof (check_operand_ok a e s1) as X. destruct (check_operand E a e s1); [discriminate|discriminate|congruence]. }
  destruct (Nat.eqb_spec (List.length (vs_operands s)) (fr_height fr)) as [Hn|Hn]; cbn [andb].
  - destruct (fr_unreachable fr); [apply Then|]. destruct e; discriminate.
  - destruct (vs_operands s) as [|t rest]; [cbn in *; lia|]. apply Then.
Qed.
Lemma calm_pop_operand e : ok (pop_operand E e).
Proof.
  apply calm_opnd; [apply opnd_pop_operand|]. intros s Hs. pose proof (slow_ok e s Hs) as X. unfold pop_operand.
  destruct (vs_operands s) as [|t rest] eqn:Eo; [exact X|]. rewrite <- (slow_some E e t s rest Eo) in X.
  destruct t as [|u|a]; try exact X. destruct e as [e|]; [|exact X]. destruct (val_eqb a e); [|exact X].
  destruct (vs_control s); [exact X|]. destruct (_ <=? _)%nat; [discriminate|exact X].
Qed.

(** * What is looked up *)
Definition known_fn (f : fnty) : Prop := Forall (known_val R) (fn_params f) /\ Forall (known_val R) (fn_results f).
Definition known_cont (c : uidx) : Prop := exists id u ps rs, c = UId id /\ r_sub_type_at_id R id = Some u /\ c_inner (s_comp u) = IFunc ps rs.
Definition fine_heap (h : hp) : Prop := known_heap R h /\ forall n, exists r, r_new n h = Some r.
Lemma calm_sub_type_at i : calm (known_type R) (sub_type_at E i).
Proof. apply calm_some. intros t H. eapply sn_index; [exact HR|exact H]. Qed.
Lemma calm_sub_type_at_id i t : r_sub_type_at_id R i = Some t -> calm (fun u => u = t /\ known_type R u) (sub_type_at_id E i).
Proof. intros H. apply calm_unwrap. exists t. split; [exact H|]. split; [reflexivity|]. eapply sn_id; [exact HR|exact H]. Qed.
Lemma calm_shared b msg : ok (check_shared E b msg).
Proof. unfold check_shared. eapply calm_bind; [apply calm_get|]. intros. apply calm_check. Qed.
Lemma calm_func_type_at i : calm known_fn (func_type_at E i).
Proof.
  unfold func_type_at. eapply calm_bind; [apply calm_sub_type_at|]. intros t (H & _). destruct (c_inner (s_comp t)) as [ps rs| | |]; try apply calm_fail.
  eapply calm_bind; [apply calm_shared|]. intros _ _. apply calm_ret. destruct (H ps rs eq_refl). split; assumption.
Qed.
Lemma calm_cont_type_at i : calm known_cont (cont_type_at E i).
Proof.
  unfold cont_type_at. eapply calm_bind; [apply calm_sub_type_at|]. intros t (_ & H & _). destruct (c_inner (s_comp t)) as [ps rs| | |]; try apply calm_fail.
  eapply calm_bind; [apply calm_shared|]. intros _ _. apply calm_ret. exact (H _ eq_refl).
Qed.
Lemma calm_func_of_cont c : known_cont c -> calm known_fn (func_type_of_cont_type E c).
Proof.
  intros (id & u & ps & rs & -> & Hu & Hi). unfold func_type_of_cont_type. cbn [core_type_id]. eapply calm_bind; [apply (calm_ret (eq id)); reflexivity|]. intros ? <-.
  eapply calm_bind; [apply calm_sub_type_at_id, Hu|]. intros ? (-> & H & _). rewrite Hi. apply calm_ret. destruct (H ps rs Hi). split; assumption.
Qed.
Lemma calm_params b : calm (Forall (known_val R)) (params E b).
Proof. destruct b; try (apply calm_ret; constructor). cbn [params]. eapply calm_bind; [apply calm_func_type_at|]. intros f [H _]. apply calm_ret. exact H. Qed.
Lemma calm_results b : known_block R b -> calm (Forall (known_val R)) (results E b).
Proof.
  intros Hb. destruct b; cbn [results]; [apply calm_ret; constructor|apply calm_ret; constructor; [exact Hb|constructor]|].
  eapply calm_bind; [apply calm_func_type_at|]. intros f [_ H]. apply calm_ret. exact H.
Qed.
Lemma calm_label_types b k : known_block R b -> calm (Forall (known_val R)) (label_types E b k).
Proof. intros Hb. unfold label_types. destruct k; first [apply calm_params|apply calm_results, Hb]. Qed.
Lemma calm_jump d : calm (fun j => known_block R (fst j)) (jump E d).
Proof.
  unfold jump. eapply calm_bind; [apply calm_control|]. intros c [Hn Hc]. destruct c as [|fr c]; [congruence|].
  destruct (nth_error (fr :: c) (Z.to_nat d)) as [f|] eqn:En; [|apply calm_fail]. apply calm_ret. apply nth_error_In in En.
  rewrite Forall_forall in Hc. exact (Hc f En).
Qed.
Lemma calm_outermost : calm (Forall (known_val R)) (outermost_results E).
Proof.
  unfold outermost_results. eapply calm_bind; [apply calm_control|]. intros c [Hn Hc].
  destruct (rev c) as [|fr l] eqn:Er; [exfalso; apply Hn; rewrite <- (rev_involutive c), Er; reflexivity|].
  apply calm_results. rewrite Forall_forall in Hc. apply Hc. apply in_rev. rewrite Er. left. reflexivity.
Qed.
Lemma calm_check_heap h : calm (fun h' => fine_heap h' /\ (is_concrete h -> is_concrete h')) (check_heap_type E h).
Proof. eapply calm_weaken; [apply calm_lift|]. intros h' H. destruct (sn_heap _ HR _ _ _ H) as (A & B & C). repeat split; assumption. Qed.
Lemma r_new_heap n h r : r_new n h = Some r -> rt_heap r = h.
Proof. unfold r_new. destruct h as [|i|i]; [|destruct (packs i)..]; intros H; try discriminate; injection H as <-; reflexivity. Qed.
Lemma calm_new n h : fine_heap h -> calm (fun r => known_heap R (rt_heap r)) (vunwrap (r_new n h)).
Proof. intros [H1 H2]. apply calm_unwrap. destruct (H2 n) as [r Hr]. exists r. split; [exact Hr|]. rewrite (r_new_heap _ _ _ Hr). exact H1. Qed.
Lemma calm_check_ref r : calm (fun r => known_heap R (rt_heap r)) (check_ref_type E r).
Proof. unfold check_ref_type. eapply calm_bind; [apply calm_check_heap|]. intros h [H _]. apply calm_new, H. Qed.
Lemma calm_require f msg : ok (require E f msg). Proof. apply calm_check. Qed.
Lemma calm_feature_ref r : ok (feature_check_ref_type E r).
Proof.
  unfold feature_check_ref_type. apply (calm_bind any); [apply calm_require|]. intros _ _. destruct (rt_heap r) as [sh t|i|i].
  - apply (calm_bind any); [destruct sh; [apply calm_require|apply calm_ret; exact I]|]. intros _ _.
    apply (calm_bind any); [destruct t; first [apply calm_require|apply calm_ret; exact I]|]. intros _ _.
    destruct t, (rt_null r); first [apply calm_require|apply calm_ret; exact I].
  - destruct (e_feat E _); [apply calm_ret; exact I|apply calm_require].
  - apply calm_require.
Qed.
Lemma calm_check_value v : calm (known_val R) (check_value_type E v).
Proof.
  unfold check_value_type. apply (calm_bind any).
  { unfold feature_check_value_type. destruct v; first [apply calm_feature_ref|apply calm_require|apply calm_ret; exact I]. }
  intros _ _. destruct v; try (apply calm_ret; exact I). eapply calm_bind; [apply calm_check_ref|]. intros r' Hr. apply calm_ret. exact Hr.
Qed.
Definition block_reads (b : p_block) : Prop := match b with PBType v => of_val v <> None | _ => True end.
Lemma calm_block_type b : block_reads b -> calm (known_block R) (check_block_type E b).
Proof.
  destruct b as [|v|i]; cbn [check_block_type block_reads]; intros H.
  - apply calm_ret. exact I.
  - destruct (of_val v) as [w|]; [|congruence]. apply (calm_bind any); [apply calm_ret; exact I|]. intros w' _. eapply calm_bind; [apply calm_check_value|]. intros u Hu. apply calm_ret. exact Hu.
  - apply (calm_bind any); [apply calm_require|]. intros _ _. eapply calm_bind; [apply calm_func_type_at|]. intros f _. apply calm_ret. exact I.
Qed.
Lemma calm_ref_to n h : ok (ref_to E n h).
Proof. unfold ref_to. eapply calm_bind; [apply calm_check_heap|]. intros h' _. apply (calm_bind any); [apply calm_some; intros; exact I|]. intros r _. apply calm_ret. exact I. Qed.
Lemma calm_pop_list l : ok (pop_list E l).
Proof.
  induction l as [|t l IH]; [apply calm_ret; exact I|]. cbn [pop_list]. eapply calm_bind; [apply calm_pop_operand|]. intros a _. eapply calm_bind; [exact IH|]. intros r _. apply calm_ret. exact I.
Qed.
Lemma calm_push t : ok (push_operand t). Proof. apply calm_push_maybe. Qed.
Lemma calm_pop t : ok (pop E t). Proof. unfold pop. eapply calm_bind; [apply calm_pop_operand|]. intros _ _. apply calm_ret. exact I. Qed.
Lemma calm_pops l : ok (pops E l). Proof. apply calm_all. intros. apply calm_pop. Qed.
Lemma calm_pushes l : ok (pushes l). Proof. apply calm_all. intros. apply calm_push. Qed.
Lemma calm_match_operands a b : ok (match_operands E a b).
Proof.
  revert b. induction a as [|t l IH]; intros [|u b]; try (apply calm_ret; exact I). cbn [match_operands]. eapply calm_bind; [|intros _ _; apply IH].
  unfold match_operand. eapply calm_bind; [apply calm_push|]. intros _ _. apply calm_pop.
Qed.
Lemma calm_local i : ok (local E i).
Proof. unfold local. eapply calm_bind; [apply calm_get|]. intros l _. apply calm_some. intros. exact I. Qed.
(** The types of locals and whether they are set: [i] is a local when its type was found. *)
Lemma calm_local_get i : ok (visit_local_get E i).
Proof.
  unfold visit_local_get. intros s Hs. unfold local, vbind at 1. unfold vbind at 1, vget at 1. destruct (Model.get (vs_locals s) i) as [t|] eqn:Eg; [|exact I].
  cbn [vsome]. unfold vret at 1. unfold local_is_uninit, vbind at 1. unfold vbind at 1, vget at 1. unfold is_uninit.
  assert (X : exists u, (if i <? li_first (vs_inits s) then Some false else match nth_error (li_bits (vs_inits s)) (Z.to_nat i) with Some b => Some (negb b) | None => None end) = Some u).
  { destruct (i <? _); [eauto|]. destruct Hs as [[_ _ _ T] _]. pose proof (tracked_get _ _ _ T Eg) as T'. clear T. rename T' into T. apply nth_error_Some in T. destruct (nth_error _ _); [eauto|congruence]. }
  destruct X as [u ->]. cbn [vunwrap]. unfold vret at 1. refine (calm_bind any any (vcheck E (negb u) _) _ (calm_check _ _) _ s Hs). intros _ _. apply calm_push.
Qed.
End Env.
