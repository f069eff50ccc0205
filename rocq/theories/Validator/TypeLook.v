(** What the validator looks up is what the typing rules look up; and each operator of a fixed type pops its operands and
    pushes its results, or fails. *)
From Verif.Base Require Import Prelude.
From Verif.Locals Require Import Model.
From Verif.Types Require Import RefModel CodecModel CanonModel.
From Verif.Instr Require Import ImmModel Ops.
From Verif.Validator Require Import State Checks Visit Undo Sig TypeSpec TypeBase TypeSem.

Record envok (E : env) (C : ctx) : Prop := mkEnvok
  { eo_res : e_res E = cx_mod C;
    eo_feat : forall f, f <> f_custom_descriptors -> e_feat E f = true;
    eo_exact : e_feat E f_custom_descriptors = cx_exact C;
    eo_at : e_at E <> 0 }.

Section Look.
Variable E : env.
Variable C : ctx.
Hypothesis HM : res_ok (cx_mod C).
Hypothesis HE : envok E C.

Definition inv (s : vst) : Prop := vs_shared s = cx_shared C.
Definition look {A} (p : V A) (o : option A) : Prop :=
  forall s, inv s -> match p s with VOk a s' => s' = s /\ o = Some a | _ => o = None end.
Lemma look_ret {A} (a : A) : look (vret a) (Some a). Proof. intros s I. cbn. auto. Qed.
Lemma look_fail {A} msg : look (vfail E msg : V A) None. Proof. intros s I. reflexivity. Qed.
Lemma look_panic {A} : look (vpanic : V A) None. Proof. intros s I. reflexivity. Qed.
Lemma look_unwrap {A} (o : option A) : look (vunwrap o) o. Proof. destruct o; [apply look_ret|apply look_panic]. Qed.
Lemma look_some {A} (o : option A) msg : look (vsome E o msg) o. Proof. destruct o; [apply look_ret|apply look_fail]. Qed.
Lemma look_check b msg : look (vcheck E b msg) (guard b (Some tt)). Proof. destruct b; [apply look_ret|apply look_fail]. Qed.
Lemma look_bind {A B} (p : V A) (k : A -> V B) o f : look p o -> (forall a, look (k a) (f a)) ->
  look (vbind p k) (match o with Some a => f a | None => None end).
Proof.
  intros H K s I. specialize (H s I). unfold vbind. destruct (p s) as [a s'| |].
  - destruct H as [-> ->]. apply K, I.
  - rewrite H. reflexivity.
  - rewrite H. reflexivity.
Qed.
Lemma look_eq {A} (p : V A) o o' : look p o -> o = o' -> look p o'. Proof. intros H <-. exact H. Qed.
Lemma look_require f msg : f <> f_custom_descriptors -> look (require E f msg) (Some tt).
Proof. intros H. unfold require. rewrite (eo_feat _ _ HE f H). apply look_ret. Qed.
Lemma look_shared b msg : look (check_shared E b msg) (guard (sees C b) (Some tt)).
Proof.
  intros s I. unfold check_shared, vbind, vget. rewrite I. unfold sees, vcheck, vret, vfail.
  destruct (cx_shared C), b; cbn; auto.
Qed.
Ltac lk := intros; repeat first
  [ apply look_ret | apply look_fail | apply look_panic | apply look_unwrap | apply look_some | apply look_check | apply look_shared
  | assumption | eassumption | apply look_bind; intros ].
Lemma look_sub_type i : look (sub_type_at E i) (r_sub_type_at (cx_mod C) i).
Proof. unfold sub_type_at. rewrite (eo_res _ _ HE). lk. Qed.
Lemma look_func i : look (func_type_at E i) (sig_func C i).
Proof.
  unfold func_type_at, sig_func.
  refine (look_bind _ _ _ (fun t => match c_inner (s_comp t) with IFunc ps rs => guard (sees C (c_shared (s_comp t))) (Some (mkFn ps rs)) | _ => None end) (look_sub_type i) _).
  intros t. destruct (c_inner (s_comp t)); try apply look_fail. eapply look_eq; [lk|]. destruct (sees _ _); reflexivity.
Qed.
Lemma look_struct i : look (struct_type_at E i) (sig_struct C i).
Proof.
  unfold struct_type_at, sig_struct.
  refine (look_bind _ _ _ (fun t => match c_inner (s_comp t) with IStruct fs => guard (sees C (c_shared (s_comp t))) (Some (fs)) | _ => None end) (look_sub_type i) _).
  intros t. destruct (c_inner (s_comp t)); try apply look_fail. eapply look_eq; [lk|]. destruct (sees _ _); reflexivity.
Qed.
Lemma look_array i : look (array_type_at E i) (sig_array C i).
Proof.
  unfold array_type_at, sig_array.
  refine (look_bind _ _ _ (fun t => match c_inner (s_comp t) with IArray fs => guard (sees C (c_shared (s_comp t))) (Some (fs)) | _ => None end) (look_sub_type i) _).
  intros t. destruct (c_inner (s_comp t)); try apply look_fail. eapply look_eq; [lk|]. destruct (sees _ _); reflexivity.
Qed.
Lemma look_field i f : look (struct_field_at E i f) (sig_field C i f).
Proof. unfold struct_field_at. eapply look_eq; [eapply look_bind; [apply look_struct|intros; apply look_some]|reflexivity]. Qed.
Definition mutable (o : option (fty uidx)) : option (fty uidx) := match o with Some fd => guard (fd_mut fd) (Some fd) | None => None end.
Lemma look_mut_field i f : look (mutable_struct_field_at E i f) (mutable (sig_field C i f)).
Proof.
  unfold mutable_struct_field_at. eapply look_eq; [eapply look_bind; [apply look_field|intros; lk]|].
  destruct (sig_field C i f) as [fd|]; [|reflexivity]. cbn. destruct (fd_mut fd); reflexivity.
Qed.
Lemma look_mut_array i : look (mutable_array_type_at E i) (mutable (sig_array C i)).
Proof.
  unfold mutable_array_type_at. eapply look_eq; [eapply look_bind; [apply look_array|intros; lk]|].
  destruct (sig_array C i) as [fd|]; [|reflexivity]. cbn. destruct (fd_mut fd); reflexivity.
Qed.
Lemma look_global i : look (global_type_at E i) (sig_global C i).
Proof.
  unfold global_type_at, sig_global. rewrite (eo_res _ _ HE). destruct (r_global_at _ i); [|apply look_fail].
  eapply look_eq; [lk|]. destruct (sees _ _); reflexivity.
Qed.
Lemma look_table i : look (table_type_at E i) (sig_table C i).
Proof.
  unfold table_type_at, sig_table. rewrite (eo_res _ _ HE). destruct (r_table_at _ i); [|apply look_fail].
  eapply look_eq; [lk|]. destruct (sees _ _); reflexivity.
Qed.
Lemma look_element i : look (element_type_at E i) (r_element_type_at (cx_mod C) i).
Proof. unfold element_type_at. rewrite (eo_res _ _ HE). lk. Qed.
Lemma look_data i : look (check_data_segment E i) (guard (sig_data C i) (Some tt)).
Proof. unfold check_data_segment, sig_data. rewrite (eo_res _ _ HE). destruct (r_data_count _); [apply look_check|apply look_fail]. Qed.
Lemma look_mem m : look (check_memory_index E m) (sig_mem C m).
Proof. unfold check_memory_index, sig_mem. rewrite (eo_res _ _ HE). eapply look_eq; [lk|]. destruct (r_memory_at _ m); reflexivity. Qed.
Lemma look_tag_any i : look (tag_at E i) (r_tag_at (cx_mod C) i).
Proof. unfold tag_at. rewrite (eo_res _ _ HE). lk. Qed.
Lemma index_cases b : index_type b = VI32 \/ index_type b = VI64. Proof. destruct b; cbn; auto. Qed.
Lemma look_memarg m : look (check_memarg E m) (mem_access C m false).
Proof.
  unfold check_memarg, mem_access. eapply look_eq; [eapply look_bind; [apply look_mem|intros; lk]|].
  unfold sig_mem. destruct (r_memory_at _ _) as [b|]; [|reflexivity]. cbn [guard]. unfold guard.
  destruct (pm_align m <=? pm_max_align m); [|reflexivity].
  destruct (index_cases b) as [-> | ->].
  - unfold val_eqb. destruct (vty_dec _ VI32 VI32) as [_|N]; [|congruence]. cbn [andb].
    replace (pm_offset m <? 2 ^ 32) with (negb (0xFFFFFFFF <? pm_offset m)); [destruct (0xFFFFFFFF <? pm_offset m); reflexivity|].
    destruct (Z.ltb_spec 0xFFFFFFFF (pm_offset m)), (Z.ltb_spec (pm_offset m) (2 ^ 32)); cbn; auto; lia.
  - unfold val_eqb. destruct (vty_dec _ VI64 VI32) as [N|_]; [congruence|]. reflexivity.
Qed.
Lemma look_shared_memarg m : look (check_shared_memarg E m) (mem_access C m true).
Proof.
  unfold check_shared_memarg. eapply look_eq; [eapply look_bind; [apply look_check|intros; apply look_memarg]|].
  unfold mem_access. unfold guard. destruct (Z.eqb_spec (pm_align m) (pm_max_align m)) as [->|]; [|destruct (sig_mem _ _); reflexivity].
  rewrite Z.leb_refl. reflexivity.
Qed.
Lemma look_heap h : look (check_heap_type E h) (resolve C h).
Proof.
  intros s I. unfold check_heap_type, vlift, resolve. rewrite (eo_res _ _ HE).
  pose proof (ro_offset _ HM h (e_at E) 0) as K.
  destruct (r_check_heap_type (cx_mod C) h (e_at E)), (r_check_heap_type (cx_mod C) h 0); try contradiction; subst; auto.
Qed.
Lemma look_reference n h : look (ref_to E n h) (match reference C (mkR n h) with Some r => Some (VRef r) | None => None end).
Proof.
  unfold ref_to, reference. eapply look_eq; [eapply look_bind; [apply look_heap|intros; lk]|]. cbn [rt_heap rt_null].
  destruct (resolve C h); [|reflexivity]. destruct (r_new n h0); reflexivity.
Qed.
Lemma look_ref_type r : look (check_ref_type E r) (reference C r).
Proof. unfold check_ref_type, reference. eapply look_eq; [eapply look_bind; [apply look_heap|intros; lk]|reflexivity]. Qed.
Lemma look_feature_ref r : look (feature_check_ref_type E r) (guard (implb (rf_exact r) (cx_exact C)) (Some tt)).
Proof.
  unfold feature_check_ref_type, rf_exact, require. destruct (rt_heap r) as [sh t|i|i].
  - destruct sh, t, (rt_null r); rewrite !(eo_feat _ _ HE) by discriminate; apply look_ret.
  - destruct (e_feat E f_gc); rewrite ?(eo_feat _ _ HE) by discriminate; apply look_ret.
  - rewrite (eo_feat _ _ HE), (eo_exact _ _ HE) by discriminate. cbn [vcheck implb]. exact (look_check _ _).
Qed.
Lemma look_value_type v : look (check_value_type E v)
  (match v with VRef r => guard (implb (rf_exact r) (cx_exact C)) (match reference C r with Some r => Some (VRef r) | None => None end) | _ => Some v end).
Proof.
  unfold check_value_type. destruct v as [| | | | |r]; cbn [feature_check_value_type]; unfold require;
    rewrite ?(eo_feat _ _ HE) by discriminate; try apply look_ret.
  eapply look_eq; [eapply look_bind; [apply look_feature_ref|intros; eapply look_bind; [apply look_ref_type|intros; lk]]|].
  destruct (implb _ _); reflexivity.
Qed.
Lemma look_value v : look (let! t := vunwrap (of_val v) in check_value_type E t) (value C v).
Proof. unfold value. eapply look_eq; [eapply look_bind; [apply look_unwrap|intros; apply look_value_type]|reflexivity]. Qed.
Lemma look_function i : look (type_of_function E i) (match r_type_index_of_function (cx_mod C) i with Some t => sig_func C t | None => None end).
Proof. unfold type_of_function. rewrite (eo_res _ _ HE). destruct (r_type_index_of_function _ i); [apply look_func|apply look_fail]. Qed.
Lemma look_exn_tag i : look (exception_tag_at E i) (match sig_tag C i with Some ps => Some (mkFn ps []) | None => None end).
Proof.
  unfold exception_tag_at, sig_tag. eapply look_eq; [eapply look_bind; [apply look_tag_any|intros; lk]|].
  destruct (r_tag_at _ i) as [[ps [|r rs]]|]; cbn; try reflexivity.
Qed.
Lemma look_no_descriptor i msg : look (no_descriptor E i msg)
  (match r_sub_type_at (cx_mod C) i with Some t => match c_descriptor (s_comp t) with None => Some tt | Some _ => None end | None => None end).
Proof.
  unfold no_descriptor. eapply look_eq; [eapply look_bind; [apply look_sub_type|]|reflexivity].
  intros t. cbv beta. destruct (c_descriptor (s_comp t)); [apply look_fail|apply look_ret].
Qed.
Lemma look_cast h : look (check_cast_to_allowed E h) (guard (castable C h) (Some tt)).
Proof. unfold check_cast_to_allowed, castable. rewrite (eo_res _ _ HE). destruct (r_top_type _ h) as [s t|i|i]; [destruct t|..]; first [apply look_ret | apply look_fail]. Qed.
Lemma look_all {A} (f : A -> V unit) (g : A -> bool) l : (forall a, look (f a) (guard (g a) (Some tt))) -> look (vall f l) (guard (forallb g l) (Some tt)).
Proof.
  intros H. induction l as [|a l IH]; [apply look_ret|]. cbn [vall forallb]. eapply look_eq; [eapply look_bind; [apply H|intros; exact IH]|].
  destruct (g a); reflexivity.
Qed.

(** * Programs that do the same *)
Definition same {A} (r r' : vres A) : Prop :=
  match r, r' with
  | VOk a s, VOk b t => a = b /\ s = t
  | VOk _ _, _ | _, VOk _ _ => False
  | _, _ => True
  end.
Definition meq {A} (m m' : V A) : Prop := forall s, inv s -> same (m s) (m' s).
Definition keeps {A} (q : V A) : Prop := forall s a s', inv s -> q s = VOk a s' -> inv s'.
Lemma same_refl {A} (r : vres A) : same r r. Proof. destruct r; cbn; auto. Qed.
Lemma meq_refl {A} (m : V A) : meq m m. Proof. intros s I. apply same_refl. Qed.
Lemma keeps_opnd {A} (q : V A) : opnd q -> keeps q.
Proof. intros H s a s' I K. specialize (H s). rewrite K in H. unfold inv. rewrite (or_shared _ _ H). exact I. Qed.
Lemma meq_pull {A B D} (q : V B) (p : V A) (k : A -> V D) o R : keeps q -> look p o ->
  (forall a, o = Some a -> meq (q ;; k a) R) -> (o = None -> meq vpanic R) -> meq (q ;; let! a := p in k a) R.
Proof.
  intros Hq Hp H1 H2 s I. unfold vbind. destruct (q s) as [b s1| |] eqn:Eq.
  - pose proof (Hp s1 (Hq _ _ _ I Eq)) as L. destruct (p s1) as [a s2| |].
    + destruct L as [-> L]. specialize (H1 a L s I). unfold vbind in H1. rewrite Eq in H1. exact H1.
    + specialize (H2 L s I). exact H2.
    + specialize (H2 L s I). exact H2.
  - destruct o as [a|]; [specialize (H1 a eq_refl s I)|specialize (H2 eq_refl s I); exact H2]. unfold vbind in H1. rewrite Eq in H1. exact H1.
  - destruct o as [a|]; [specialize (H1 a eq_refl s I)|specialize (H2 eq_refl s I); exact H2]. unfold vbind in H1. rewrite Eq in H1. exact H1.
Qed.
Lemma meq_pull_last {A B} (q : V B) (p : V A) o R : keeps q -> look p o ->
  (forall a, o = Some a -> meq (q ;; vret a) R) -> (o = None -> meq vpanic R) -> meq (q ;; p) R.
Proof.
  intros Hq Hp H1 H2 s I. pose proof (meq_pull q p vret o R Hq Hp H1 H2 s I) as K. unfold vbind in *.
  destruct (q s) as [b s1| |]; auto. destruct (p s1); auto.
Qed.
Lemma meq_assoc {A B D} (q : V B) (p : V A) (k : V D) R : meq ((q ;; p) ;; k) R -> meq (q ;; p ;; k) R.
Proof. intros H s I. specialize (H s I). unfold vbind in *. destruct (q s); auto. Qed.
Lemma meq_assoc_in {A B D F} (q : V B) (p : V A) (k : A -> V D) (l : D -> V F) R : meq (q ;; let! a := p in let! d := k a in l d) R ->
  meq (q ;; let! d := (let! a := p in k a) in l d) R.
Proof. intros H s I. specialize (H s I). unfold vbind in *. destruct (q s) as [b s1| |]; auto. destruct (p s1); auto. Qed.
Lemma meq_pop {B D} (q : V B) t (k : V D) R : meq (q ;; pop E t ;; k) R -> meq (q ;; pop_operand E (Some t) ;; k) R.
Proof. intros H s I. specialize (H s I). unfold pop, vbind, vret in *. destruct (q s) as [b s1| |]; auto. destruct (pop_operand E (Some t) s1); auto. Qed.
Lemma meq_start {D} (m : V D) R : meq (vret tt ;; m) R -> meq m R. Proof. intros H. exact H. Qed.
Lemma keeps_ret {A} (a : A) : keeps (vret a). Proof. apply keeps_opnd, opnd_ret. Qed.
Lemma keeps_seq {A B} (p : V A) (q : V B) : keeps p -> keeps q -> keeps (p ;; q).
Proof. intros H K s a s' I. unfold vbind. destruct (p s) eqn:Ep; try discriminate. intros L. eapply K; [eapply H; eassumption|exact L]. Qed.
End Look.
