(** More features accept more modules. *)
From Verif.Base Require Import Prelude.
From Verif.Reader Require Import Model.
From Verif.Types Require Import RefModel CodecModel EntityModel CanonModel.
From Verif.Instr Require Import ImmModel Ops BodyModel.
From Verif.Sections Require Import SegModel.
From Verif.Validator Require Import State Checks Visit Api Body Module.
From Verif.Validator Require Mono.
From Verif.Modval Require Import Model.

Definition ole {A} (x y : outcome A) : Prop := forall a, x = Done a -> y = Done a.
Lemma ole_refl {A} (x : outcome A) : ole x x. Proof. intros a H. exact H. Qed.
Lemma ole_bind {A B} (x y : outcome A) (f g : A -> outcome B) : ole x y -> (forall a, ole (f a) (g a)) -> ole (obind x f) (obind y g).
Proof. intros H K b E. destruct x as [a| |]; cbn in E; try discriminate. rewrite (H a eq_refl). cbn. apply K. exact E. Qed.
Lemma ole_each {A S} (f g : S -> A -> outcome S) l : (forall s a, ole (f s a) (g s a)) -> forall s, ole (each f s l) (each g s l).
Proof. intros H. induction l as [|a l IH]; intros s; cbn [each]; [apply ole_refl|]. apply ole_bind; [apply H|exact IH]. Qed.
Lemma ole_rejected {A} e (y : outcome A) : ole (Rejected e) y. Proof. intros a H. discriminate. Qed.
Lemma ole_panicked {A} (y : outcome A) : ole Panicked y. Proof. intros a H. discriminate. Qed.
Lemma ole_check pos (a b : bool) msg : (a = true -> b = true) -> ole (check pos a msg) (check pos b msg).
Proof. intros H x E. destruct a; [rewrite H by reflexivity; exact E|discriminate]. Qed.

Ltac same := match goal with |- ole ?x ?x => apply ole_refl end.
Section More.
Variables F F' : feature -> bool.
Variables G G' : m_feature -> bool.
Variable ft : features.
Variable pos : Z.
Hypothesis HF : forall f, F f = true -> F' f = true.
Hypothesis HX : F f_custom_descriptors = F' f_custom_descriptors.
Hypothesis HG : forall g, G g = true -> G' g = true.
Lemma ole_need f msg : ole (need F pos f msg) (need F' pos f msg). Proof. apply ole_check, HF. Qed.
Lemma ole_needm f msg : ole (needm G pos f msg) (needm G' pos f msg). Proof. apply ole_check, HG. Qed.
Lemma ole_ask {A} (x y : V A) : Verif.Validator.Mono.le x y -> ole (ask x) (ask y).
Proof. intros H a E. unfold ask in *. destruct (x (new_const_expr VI32)) as [a' s'| |] eqn:Ex; try discriminate. rewrite (H _ _ _ Ex). exact E. Qed.
Ltac go := repeat first
  [ same | apply ole_rejected | apply ole_panicked | apply ole_need | apply ole_needm
  | apply ole_bind; intros; cbv beta
  | progress cbv zeta
  | match goal with |- ole (match ?x with _ => _ end) (match ?x with _ => _ end) => destruct x end
  | match goal with |- ole (if ?x then _ else _) (if ?x then _ else _) => destruct x end ].
Lemma ole_ref s m r : ole (check_ref F pos s m r) (check_ref F' pos s m r).
Proof.
  unfold check_ref, here. apply ole_ask. intros v a v' H. unfold vbind in *.
  destruct (feature_check_ref_type _ r v) as [[] v1| |] eqn:E; try discriminate.
  apply (Verif.Validator.Mono.le_ref_type (module_resources s m) F F' HF pos) in E. rewrite E. exact H.
Qed.
Lemma ole_value s m v : ole (check_value F pos s m v) (check_value F' pos s m v).
Proof. unfold check_value, here. apply ole_ask. apply (Verif.Validator.Mono.le_value_type (module_resources s m) F F' HF pos). Qed.
Lemma ole_table s m t : ole (check_table F G pos s m t) (check_table F' G' pos s m t).
Proof. unfold check_table. destruct (of_ref (t_elem t)); [|go]. apply ole_bind; [destruct (rty_dec _ _ _); [same|apply ole_ref]|intros; cbv beta]. go. Qed.
Lemma ole_memory t : ole (check_memory F G pos t) (check_memory F' G' pos t). Proof. unfold check_memory. go. Qed.
Lemma ole_tag s m t : ole (check_tag F pos s m t) (check_tag F' pos s m t). Proof. unfold check_tag. go. Qed.
Lemma ole_global s m t : ole (check_global F pos s m t) (check_global F' pos s m t).
Proof. unfold check_global. destruct (of_val _); [|go]. apply ole_bind; [apply ole_value|intros; cbv beta]. go. Qed.
Lemma max_tables_more : max_tables F <= max_tables F'.
Proof. unfold max_tables. pose proof (HF f_reference_types). destruct (F f_reference_types), (F' f_reference_types); lia || (specialize (H eq_refl); discriminate). Qed.
Lemma max_memories_more : max_memories G <= max_memories G'.
Proof. unfold max_memories. pose proof (HG g_multi_memory). destruct (G g_multi_memory), (G' g_multi_memory); lia || (specialize (H eq_refl); discriminate). Qed.
Lemma ole_max cur added a b desc : a <= b -> ole (check_max pos cur added a desc) (check_max pos cur added b desc).
Proof. intros H. apply ole_check. rewrite !Bool.andb_true_iff, !Z.leb_le. lia. Qed.
Lemma ole_const_before o x : ole (const_before F G pos o x) (const_before F' G' pos o x).
Proof. destruct o; cbn [const_before]; go. unfold const_global. go. Qed.
Lemma ole_const_loop : forall n r s x, ole (const_loop F G pos n r s x) (const_loop F' G' pos n r s x).
Proof.
  induction n as [|n IH]; intros r s x; cbn [const_loop]; [same|]. destruct (eof r); [same|].
  apply ole_bind; [same|]. intros [o r']. apply ole_bind; [apply ole_const_before|]. intros x'. apply ole_bind; [|intros; apply IH].
  intros a E. unfold of_visit, op in *. match type of E with match ?v with _ => _ end = _ => destruct v as [[] s1| |] eqn:Ev end; try discriminate.
  apply (Verif.Validator.Mono.le_visit (module_resources (ms_store (fst x')) (ms_mod (fst x'))) F F' HF HX) in Ev. rewrite Ev. exact E.
Qed.
Lemma ole_const st b t : ole (check_const F G ft pos st b t) (check_const F' G' ft pos st b t).
Proof. unfold check_const. apply ole_bind; [apply ole_const_loop|intros; same]. Qed.
Lemma ole_import st e : ole (add_import F G pos st e) (add_import F' G' pos st e).
Proof.
  unfold add_import. cbv zeta. destruct e;
    repeat first [match goal with |- ole ?x ?x => same end | apply ole_table | apply ole_memory | apply ole_tag | apply ole_global | apply ole_max, max_tables_more | apply ole_max, max_memories_more
      | match goal with |- ole (if g_mut ?g then _ else _) _ => destruct (g_mut g); [apply ole_needm|same] end | apply ole_bind; [|intros; cbv beta]].
Qed.
Lemma ole_imports st i : ole (add_imports F G ft pos st i) (add_imports F' G' ft pos st i).
Proof. unfold add_imports. apply ole_bind; [same|intros]. apply ole_bind; [same|intros]. apply ole_each. intros. apply ole_import. Qed.
Lemma ole_add_memory st t : ole (add_memory F G pos st t) (add_memory F' G' pos st t).
Proof. unfold add_memory. apply ole_bind; [same|intros]. apply ole_bind; [apply ole_memory|intros; same]. Qed.
Lemma ole_add_tag st t : ole (add_tag F pos st t) (add_tag F' pos st t).
Proof. unfold add_tag. apply ole_bind; [same|intros]. apply ole_bind; [apply ole_tag|intros; same]. Qed.
Lemma ole_add_table st t : ole (add_table F G ft pos st t) (add_table F' G' ft pos st t).
Proof.
  unfold add_table. apply ole_bind; [apply ole_table|intros]. apply ole_bind; [|intros; same].
  destruct (ptd_init t); [|same]. apply ole_bind; [apply ole_need|intros; apply ole_const].
Qed.
Lemma ole_add_global st t : ole (add_global F G ft pos st t) (add_global F' G' ft pos st t).
Proof. unfold add_global. apply ole_bind; [apply ole_global|intros]. apply ole_bind; [apply ole_const|intros; same]. Qed.
Lemma ole_add_export st x : ole (add_export G pos st x) (add_export G' pos st x).
Proof.
  unfold add_export. apply ole_bind; [same|intros]. apply ole_bind; [same|intros [[st' size] mut]].
  apply ole_bind; [destruct mut; [apply ole_needm|same]|intros; same].
Qed.
Lemma ole_add_element st e : ole (add_element F G ft pos st e) (add_element F' G' ft pos st e).
Proof.
  unfold add_element. cbv zeta. apply ole_bind; [destruct (pe_items e); [same|]; destruct (of_ref ty); [apply ole_ref|same]|intros ty].
  apply ole_bind.
  - destruct (pe_kind e); try (apply ole_bind; [apply ole_need|intros; same]).
    apply ole_bind; [same|intros]. apply ole_bind; [same|intros]. apply ole_bind; [same|intros]. apply ole_const.
  - intros st'. apply ole_bind; [|intros; same]. destruct (pe_items e); [same|].
    apply ole_bind; [same|intros]. apply ole_bind; [same|intros]. apply ole_each. intros. apply ole_const.
Qed.
Lemma ole_add_data st d : ole (add_data F G ft pos st d) (add_data F' G' ft pos st d).
Proof.
  unfold add_data. destruct (pd_kind d); [apply ole_bind; [apply ole_need|intros; same]|]. destruct (nthz _ _); [apply ole_const|same].
Qed.
Lemma ole_counted {A} st len max max' f f' (l : list A) : max <= max' -> (forall s a, ole (f s a) (f' s a)) -> ole (counted pos st len max f l) (counted pos st len max' f' l).
Proof. intros H K. unfold counted. apply ole_bind; [apply ole_max, H|intros]. apply ole_bind; [same|intros]. apply ole_each, K. Qed.
Lemma ole_section x d : ole (section F G ft pos x d) (section F' G' ft pos x d).
Proof.
  unfold section. cbv zeta. destruct d; try (apply ole_bind; [|intros; same]); try same.
  - apply ole_counted; [lia|intros; apply ole_imports].
  - apply ole_counted; [apply max_tables_more|intros; apply ole_add_table].
  - apply ole_counted; [apply max_memories_more|intros; apply ole_add_memory].
  - apply ole_bind; [apply ole_need|intros]. apply ole_bind; [|intros; same]. apply ole_counted; [lia|intros; apply ole_add_tag].
  - apply ole_counted; [lia|intros; apply ole_add_global].
  - apply ole_counted; [lia|intros; apply ole_add_export].
  - apply ole_counted; [lia|intros; apply ole_add_element].
  - apply ole_bind; [same|intros]. apply ole_each. intros. apply ole_add_data.
Qed.
Lemma validate_module_more s l : ole (validate_module F G ft pos s l) (validate_module F' G' ft pos s l).
Proof.
  unfold validate_module. apply ole_bind; [apply ole_each; intros; apply ole_section|]. intros [st fs]. apply ole_each. intros [] f. unfold body, new_func. cbn [e_res].
  intros [] E. destruct (r_sub_type_at _ (fst f)) as [t|] eqn:Et; [|discriminate]. destruct (c_inner (s_comp t)) eqn:Ei; try discriminate.
  apply (Verif.Validator.Mono.validate_more _ F F' HF HX). exact E.
Qed.
End More.
