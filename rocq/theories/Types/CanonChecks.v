(** The checks on the types of a group against validity. *)
From Verif.Base Require Import Prelude.
From Verif.Types Require Import CanonModel CanonSpec CanonLemmas CanonSub.

(** An operation that neither panics nor runs on, and succeeds exactly when [P]. *)
Definition accepts {A} (o : outcome A) (P : Prop) : Prop := settled o /\ ((exists a, o = Done a) <-> P).
Lemma accepts_iff {A} (o : outcome A) P Q : (P <-> Q) -> accepts o P -> accepts o Q.
Proof. intros E [S H]. split; [assumption | rewrite H; assumption]. Qed.
Lemma accepts_yes {A} (a : A) (P : Prop) : P -> accepts (Done a) P.
Proof. intros p. split; [exact I |]. split; eauto. Qed.
Lemma accepts_no {A} m (P : Prop) : ~ P -> accepts (@Refused A m) P.
Proof. intros p. split; [exact I |]. split; [intros [a E]; discriminate | intros; contradiction]. Qed.
Lemma accepts_bind {A B} (o : outcome A) (k : A -> outcome B) (P Q : Prop) :
  accepts o P -> (forall a, o = Done a -> P -> accepts (k a) Q) -> accepts (obind o k) (P /\ Q).
Proof.
  intros [S H] F. destruct o as [a|m| |]; cbn in *; try contradiction.
  - assert (p : P) by (apply H; eauto). destruct (F a eq_refl p) as [S' H']. split; [assumption | rewrite H'; tauto].
  - split; [exact I |]. split; [intros [b E]; discriminate |]. intros [p _]. apply H in p. destruct p; discriminate.
Qed.
Lemma check_all_accepts {A} (c : A -> outcome unit) (P : A -> Prop) l : (forall a, In a l -> accepts (c a) (P a)) -> accepts (check_all c l) (Forall P l).
Proof.
  induction l as [|a l IH]; intros H; cbn; [apply accepts_yes; constructor |].
  eapply accepts_iff; [| apply accepts_bind; [apply H; left; reflexivity | intros _ _ _; apply IH; intros; apply H; right; assumption]].
  split; [intros []; constructor; assumption | intros F; inversion F; auto].
Qed.
Definition answers {A} (o : outcome A) : Prop := exists r, o = Done r.
Lemma decides_answers o P : decides o P -> answers o.
Proof. intros (r & E & _). exists r. exact E. Qed.

Section Checks.
Variable T : list (subty Z).
Variable s : store.
Hypothesis HT : st_types s = T.
Hypothesis HS : st_super s = map s_super T.
Hypothesis O : ordered T.
Ltac same := match goal with H : is_type T ?i ?t, H' : is_type T ?i ?u |- _ => assert (t = u) by (unfold is_type in *; congruence); first [subst u | subst t]; clear H' end.

(** ** The tests always answer *)
Lemma ref_answers a b : Forall (defined T) (refs_heap (rt_heap a)) -> Forall (defined T) (refs_heap (rt_heap b)) -> answers (ref_is_subtype s a b).
Proof. intros. eapply decides_answers. apply (ref_decides_nf T s HT HS O); assumption. Qed.
Lemma val_answers a b : Forall (defined T) (refs_val a) -> Forall (defined T) (refs_val b) -> answers (val_matches s a b).
Proof.
  intros Da Db. destruct a, b; unfold val_matches; try (eexists; reflexivity). apply ref_answers; assumption.
Qed.
Lemma sto_answers a b : Forall (defined T) (refs_sto a) -> Forall (defined T) (refs_sto b) -> answers (sto_matches s a b).
Proof. intros Da Db. destruct a, b; unfold sto_matches; try (eexists; reflexivity). apply val_answers; assumption. Qed.
Lemma fld_answers a b : Forall (defined T) (refs_sto (fd_elem a)) -> Forall (defined T) (refs_sto (fd_elem b)) -> answers (fld_matches s a b).
Proof.
  intros Da Db. unfold fld_matches. destruct (sto_answers _ _ Da Db) as [r ->]. cbn.
  destruct (negb r); [eexists; reflexivity |]. destruct (negb (fd_mut a) && negb (fd_mut b)); [eexists; reflexivity |].
  destruct (fd_mut a && fd_mut b); [apply sto_answers; assumption | eexists; reflexivity].
Qed.
Lemma all2_answers {A B} (p : A -> B -> outcome bool) l m : (forall a b, In a l -> In b m -> answers (p a b)) -> answers (all2 p l m).
Proof.
  revert m; induction l as [|a l IH]; intros [|b m] H; cbn [all2]; try (eexists; reflexivity).
  destruct (H a b (or_introl eq_refl) (or_introl eq_refl)) as [r ->]. cbn. destruct r; [| eexists; reflexivity].
  apply IH. intros; apply H; right; assumption.
Qed.
Lemma comp_answers a b : Forall (defined T) (refs_inner (c_inner a)) -> Forall (defined T) (refs_inner (c_inner b)) -> answers (comp_matches s a b).
Proof.
  intros Da Db. unfold comp_matches. destruct (negb (Bool.eqb (c_shared a) (c_shared b))); [eexists; reflexivity |].
  destruct (c_inner a) as [pa ra|x|fa|i], (c_inner b) as [pb rb|y|fb|j]; cbn [refs_inner] in *; try (eexists; reflexivity).
  - apply Forall_app in Da, Db. destruct Da as [Da1 Da2], Db as [Db1 Db2].
    destruct (negb _ || negb _); [eexists; reflexivity |].
    destruct (all2_answers (fun x y => val_matches s y x) pa pb) as [r ->].
    { intros u v Hu Hv. apply val_answers; [exact (Forall_flat_in T _ _ _ Db1 Hv) | exact (Forall_flat_in T _ _ _ Da1 Hu)]. }
    cbn. destruct r; [| eexists; reflexivity]. apply all2_answers.
    intros u v Hu Hv. apply val_answers; [exact (Forall_flat_in T _ _ _ Da2 Hu) | exact (Forall_flat_in T _ _ _ Db2 Hv)].
  - apply fld_answers; assumption.
  - destruct (Nat.leb _ _); [| eexists; reflexivity]. apply all2_answers.
    intros u v Hu Hv. apply fld_answers; [exact (Forall_flat_in T _ _ _ Da Hu) | exact (Forall_flat_in T _ _ _ Db Hv)].
  - destruct (i =? j); [eexists; reflexivity |]. apply ref_answers; assumption.
Qed.
Lemma comp_true_kind a b : comp_matches s a b = Done true -> c_shared a = c_shared b /\ kind_of a = kind_of b.
Proof.
  unfold comp_matches, kind_of. destruct (Bool.eqb (c_shared a) (c_shared b)) eqn:E; cbn [negb]; [| discriminate].
  apply Bool.eqb_prop in E. intros H. split; [assumption |]. destruct (c_inner a), (c_inner b); first [reflexivity | discriminate].
Qed.

Lemma refs_comp i t : is_type T i t -> Forall (defined T) (refs_inner (c_inner (s_comp t))).
Proof. intros H. pose proof (o_refs T O _ _ H) as F. unfold refs_sub in F. rewrite !Forall_app in F. tauto. Qed.
Lemma refs_super i t j : is_type T i t -> s_super t = Some j -> defined T j.
Proof. intros H E. pose proof (o_refs T O _ _ H) as F. unfold refs_sub in F. rewrite !Forall_app, E in F. destruct F as [F _]. inversion F; assumption. Qed.
Lemma refs_descriptor i t j : is_type T i t -> c_descriptor (s_comp t) = Some j -> defined T j.
Proof. intros H E. pose proof (o_refs T O _ _ H) as F. unfold refs_sub in F. rewrite !Forall_app, E in F. destruct F as (_ & F & _). inversion F; assumption. Qed.
Lemma refs_describes i t j : is_type T i t -> c_describes (s_comp t) = Some j -> defined T j.
Proof. intros H E. pose proof (o_refs T O _ _ H) as F. unfold refs_sub in F. rewrite !Forall_app, E in F. destruct F as (_ & _ & F & _). inversion F; assumption. Qed.

(** ** Sharing and continuations *)
Lemma shared_accepts sh v : Forall (defined T) (refs_val v) -> accepts (check_shared s sh v) (sh = true -> shared_val T v).
Proof.
  intros D. unfold check_shared. destruct sh; [| apply accepts_yes; discriminate].
  assert (W : forall o : outcome unit, accepts o (shared_val T v) -> accepts o (true = true -> shared_val T v)) by (intros o; apply accepts_iff; tauto).
  apply W. clear W. destruct v as [| | | | | [n [b t|i|i]]]; cbn; try (apply accepts_yes; exact I).
  - destruct b; [apply accepts_yes; reflexivity | apply accepts_no; discriminate].
  - destruct (type_at_done T s HT i) as (u & E & Hu); [inversion D; assumption |]. unfold ref_is_shared; cbn. rewrite E. cbn.
    destruct (c_shared (s_comp u)) eqn:Es; [apply accepts_yes; eauto | apply accepts_no; intros (u' & Hu' & X)]. same. congruence.
  - destruct (type_at_done T s HT i) as (u & E & Hu); [inversion D; assumption |]. unfold ref_is_shared; cbn. rewrite E. cbn.
    destruct (c_shared (s_comp u)) eqn:Es; [apply accepts_yes; eauto | apply accepts_no; intros (u' & Hu' & X)]. same. congruence.
Qed.
Definition comp_ok (c : comp Z) : Prop :=
  (c_shared c = true -> Forall (shared_val T) (vals_of c)) /\
  (forall j, c_inner c = ICont j -> exists u ps rs, is_type T j u /\ c_inner (s_comp u) = IFunc ps rs).
Lemma field_accepts sh x : Forall (defined T) (refs_sto (fd_elem x)) -> accepts (check_field s sh x) (sh = true -> Forall (shared_val T) (sto_vals (fd_elem x))).
Proof.
  intros D. unfold check_field. destruct (fd_elem x); cbn; try (apply accepts_yes; constructor).
  eapply accepts_iff; [| apply shared_accepts; exact D]. split; intros H E; [constructor; auto | specialize (H E); inversion H; assumption].
Qed.
Lemma composite_accepts c : Forall (defined T) (refs_inner (c_inner c)) -> accepts (check_composite s c) (comp_ok c).
Proof.
  intros D. unfold check_composite, comp_ok, vals_of. destruct (c_inner c) as [ps rs|x|fs|i]; cbn [refs_inner] in D.
  - eapply accepts_iff; [| apply check_all_accepts; intros v Hv; apply shared_accepts; rewrite <- flat_map_app in D; exact (Forall_flat_in T _ _ _ D Hv)].
    rewrite !Forall_forall. split; [intros H; split; [intros E v Hv; apply H; assumption | discriminate] | intros [H _] v Hv E; apply H; assumption].
  - eapply accepts_iff; [| apply field_accepts; exact D]. split; [intros H; split; [assumption | discriminate] | tauto].
  - eapply accepts_iff; [| apply check_all_accepts; intros v Hv; apply field_accepts; exact (Forall_flat_in T _ _ _ D Hv)].
    split.
    + intros H; split; [| discriminate]. intros E. rewrite Forall_forall in *. intros v Hv. apply in_flat_map in Hv. destruct Hv as (x & Hx & Hv).
      specialize (H x Hx E). rewrite Forall_forall in H. auto.
    + intros [H _]. rewrite Forall_forall. intros x Hx E. specialize (H E). rewrite Forall_forall in *. intros v Hv. apply H. apply in_flat_map. eauto.
  - destruct (type_at_done T s HT i) as (u & E & Hu); [inversion D; assumption |]. rewrite E. cbn. unfold is_func.
    destruct (c_inner (s_comp u)) as [ps rs| | |] eqn:Eu.
    1: { apply accepts_yes. split; [intros; constructor |]. intros j Ej. injection Ej as <-. exists u, ps, rs. auto. }
    all: apply accepts_no; intros [_ H]; destruct (H i eq_refl) as (u' & ps & rs & Hu' & X); same; congruence.
Qed.

(** ** Descriptors *)
Definition super_clause (t u : subty Z) : Prop :=
  match c_descriptor (s_comp t), c_descriptor (s_comp u) with
  | Some d, Some du => declares T d du
  | None, Some _ => False
  | _, None => True
  end /\
  match c_describes (s_comp t), c_describes (s_comp u) with
  | Some a, Some b => declares T a b
  | None, None => True
  | _, _ => False
  end.
Lemma opt_is_spec o i : opt_is o i = true <-> o = Some i.
Proof. destruct o; cbn; [rewrite Z.eqb_eq; split; congruence | split; discriminate]. Qed.
Lemma declares_accepts d du m : defined T d ->
  accepts (do dt <- type_at s d in if opt_is (s_super dt) du then Done tt else Refused m) (declares T d du).
Proof.
  intros D. destruct (type_at_done T s HT d D) as (u & -> & Hu). cbn. destruct (opt_is (s_super u) du) eqn:E.
  - apply opt_is_spec in E. apply accepts_yes. exists u. auto.
  - apply accepts_no. intros (u' & Hu' & X). same. apply opt_is_spec in X. congruence.
Qed.
Lemma super_clause_accepts i t u : is_type T i t -> accepts (check_super_descriptors s t u) (super_clause t u).
Proof.
  intros Ht. unfold check_super_descriptors, super_clause. apply accepts_bind.
  - destruct (c_descriptor (s_comp t)) as [d|] eqn:Ed, (c_descriptor (s_comp u)) as [du|].
    + apply declares_accepts. eapply refs_descriptor; eauto.
    + apply accepts_yes; exact I.
    + apply accepts_no; tauto.
    + apply accepts_yes; exact I.
  - intros _ _ _. destruct (c_describes (s_comp t)) as [d|] eqn:Ed, (c_describes (s_comp u)) as [du|].
    + apply declares_accepts. eapply refs_describes; eauto.
    + apply accepts_no; tauto.
    + apply accepts_no; tauto.
    + apply accepts_yes; exact I.
Qed.
Record clauses (i : Z) (t : subty Z) : Prop := mkClauses {
  cl_struct : c_descriptor (s_comp t) <> None \/ c_describes (s_comp t) <> None -> struct_type t;
  cl_super : forall j u, s_super t = Some j -> is_type T j u -> super_clause t u;
  cl_descriptor : forall d, c_descriptor (s_comp t) = Some d -> exists u, is_type T d u /\ c_describes (s_comp u) = Some i;
  cl_describes : forall d, c_describes (s_comp t) = Some d -> exists u, is_type T d u /\ c_descriptor (s_comp u) = Some i
}.
Lemma names_accepts (f : comp Z -> option Z) d i m : defined T d ->
  accepts (do dt <- type_at s d in if opt_is (f (s_comp dt)) i then Done tt else Refused m) (exists u, is_type T d u /\ f (s_comp u) = Some i).
Proof.
  intros D. destruct (type_at_done T s HT d D) as (u & -> & Hu). cbn. destruct (opt_is (f (s_comp u)) i) eqn:E.
  - apply opt_is_spec in E. apply accepts_yes. exists u. auto.
  - apply accepts_no. intros (u' & Hu' & X). same. apply opt_is_spec in X. congruence.
Qed.
Lemma descriptors_accepts i t : is_type T i t -> accepts (check_descriptors s i) (clauses i t).
Proof.
  intros Ht. unfold check_descriptors. rewrite (type_at_is T s HT i t Ht). cbn [obind].
  destruct ((is_some (c_descriptor (s_comp t)) || is_some (c_describes (s_comp t))) && negb (is_struct (s_comp t))) eqn:E.
  - apply accepts_no. intros [C _ _ _]. apply andb_true_iff in E. destruct E as [E1 E2].
    assert (X : struct_type t). { apply C. apply orb_true_iff in E1. destruct (c_descriptor (s_comp t)), (c_describes (s_comp t)); cbn in E1; (left; discriminate) || (right; discriminate) || (destruct E1; discriminate). }
    destruct X as [fs X]. unfold is_struct in E2. rewrite X in E2. discriminate.
  - assert (C : c_descriptor (s_comp t) <> None \/ c_describes (s_comp t) <> None -> struct_type t).
    { intros X. unfold is_struct in E. unfold struct_type. destruct (c_inner (s_comp t)); try solve [eauto];
        destruct (c_descriptor (s_comp t)), (c_describes (s_comp t)); cbn in E; try discriminate; destruct X; congruence. }
    eapply accepts_iff; [| apply accepts_bind with (P := forall j u, s_super t = Some j -> is_type T j u -> super_clause t u);
      [| intros _ _ _; apply accepts_bind with (P := forall d, c_descriptor (s_comp t) = Some d -> exists u, is_type T d u /\ c_describes (s_comp u) = Some i)
           (Q := forall d, c_describes (s_comp t) = Some d -> exists u, is_type T d u /\ c_descriptor (s_comp u) = Some i); [| intros _ _ _]]].
    + split; [intros (A & B & D); constructor; assumption | intros []; auto].
    + destruct (s_super t) as [j|] eqn:Es; [| apply accepts_yes; discriminate].
      destruct (type_at_done T s HT j) as (u & Eu & Hu); [eapply refs_super; eauto |]. rewrite Eu. cbn [obind].
      eapply accepts_iff; [| eapply super_clause_accepts; eauto]. split; [| intros H; eapply H; eauto].
      intros H j' u' Ej Hu'. injection Ej as <-. same. assumption.
    + destruct (c_descriptor (s_comp t)) as [d|] eqn:Ed; [| apply accepts_yes; discriminate].
      eapply accepts_iff; [| apply (names_accepts (@c_describes Z)); eapply refs_descriptor; eauto].
      split; [intros H d' Ed'; injection Ed' as <-; assumption | auto].
    + destruct (c_describes (s_comp t)) as [d|] eqn:Ed; [| apply accepts_yes; discriminate].
      eapply accepts_iff; [| apply (names_accepts (@c_descriptor Z)); eapply refs_describes; eauto].
      split; [intros H d' Ed'; injection Ed' as <-; assumption | auto].
Qed.
Lemma set_depth_types d i : st_types (set_depth s i d) = T. Proof. exact HT. Qed.

(** ** Supertypes and depth *)
(** Types below [n] have their depth recorded, except for closed types without a supertype. *)
Definition depths (n : Z) : Prop := forall i t, is_type T i t -> i < n ->
  (s_final t = true /\ s_super t = None) \/ exists d, find_depth (st_depth s) i = Some d /\ depth T i d /\ d <= 63.
Lemma depth_fun i d d' : depth T i d -> depth T i d' -> d = d'.
Proof.
  clear HT HS O. intros H; revert d'; induction H as [i t Ht Hs | i t j d Ht Hs H IH]; intros d' H'; inversion H'; subst; same; try congruence.
  rewrite Hs in *. inversion H1; subst. f_equal. apply IH. assumption.
Qed.
Definition super_ok (t : subty Z) : Prop := forall j, s_super t = Some j -> exists u, is_type T j u /\ s_final u = false /\ comp_sub T (s_comp t) (s_comp u).
Lemma subtype_settled i t : is_type T i t -> depths i -> settled (check_subtype s i).
Proof.
  intros Ht Dp. unfold check_subtype. rewrite (type_at_is T s HT i t Ht). cbn [obind].
  apply settled_bind; [apply composite_accepts; eapply refs_comp; eauto |]. intros _ _.
  apply settled_bind; [| intros; exact I]. destruct (s_super t) as [j|] eqn:Es; [| exact I].
  destruct (type_at_done T s HT j) as (u & Eu & Hu); [eapply refs_super; eauto |]. rewrite Eu. cbn [obind].
  destruct (s_final u) eqn:Ef; [exact I |].
  unfold type_matches. rewrite (type_at_is T s HT i t Ht), Eu. cbn [obind].
  destruct (comp_answers (s_comp t) (s_comp u)) as [r ->]; [eapply refs_comp; eauto .. |]. cbn. destruct r; cbn; [| exact I].
  destruct (Dp j u Hu) as [[E _]|(d & Ed & _)]; [apply (o_sup T O _ _ _ Ht Es) | congruence |].
  unfold get_depth. rewrite Ed. cbn. destruct (MAX_WASM_SUBTYPING_DEPTH <? d + 1); exact I.
Qed.
Lemma subtype_kind i t s' : is_type T i t -> check_subtype s i = Done s' -> (exists d, s' = set_depth s i d) /\
  forall j u, s_super t = Some j -> is_type T j u -> c_shared (s_comp t) = c_shared (s_comp u) /\ kind_of (s_comp t) = kind_of (s_comp u).
Proof.
  intros Ht. unfold check_subtype. rewrite (type_at_is T s HT i t Ht). cbn [obind]. intros H.
  apply obind_done in H. destruct H as ([] & _ & H). apply obind_done in H. destruct H as (d & H & E). inversion E; subst s'. split; [eauto |].
  intros j u Es Hu. rewrite Es, (type_at_is T s HT j u Hu) in H. cbn [obind] in H.
  destruct (s_final u); [discriminate |]. unfold type_matches in H. rewrite (type_at_is T s HT i t Ht), (type_at_is T s HT j u Hu) in H. cbn [obind] in H.
  apply obind_done in H. destruct H as (m & Em & H). destruct m; [| discriminate]. apply comp_true_kind. assumption.
Qed.
Hypothesis K : kinds T.
Lemma subtype_accepts i t : is_type T i t -> depths i ->
  accepts (check_subtype s i) (comp_ok (s_comp t) /\ super_ok t /\ exists d, depth T i d /\ d <= 63).
Proof.
  intros Ht Dp. split; [eapply subtype_settled; eauto |].
  unfold check_subtype. rewrite (type_at_is T s HT i t Ht). cbn [obind].
  refine (proj2 (accepts_bind _ _ _ _ (composite_accepts _ (refs_comp _ _ Ht)) _)). intros _ _ _.
  assert (W : forall (o : outcome Z) P, accepts o P -> accepts (do d <- o in Done (set_depth s i d)) P).
  { intros o P A. eapply accepts_iff; [| apply (accepts_bind _ _ _ True A); intros; apply accepts_yes; exact I]. tauto. }
  apply W. clear W. unfold super_ok. destruct (s_super t) as [j|] eqn:Es.
  2: { apply accepts_yes. split; [discriminate |]. exists 0. split; [econstructor; eauto | lia]. }
  destruct (type_at_done T s HT j) as (u & Eu & Hu); [eapply refs_super; eauto |]. rewrite Eu. cbn [obind].
  destruct (s_final u) eqn:Ef.
  { apply accepts_no. intros [H _]. destruct (H j eq_refl) as (u' & Hu' & X & _). same. congruence. }
  unfold type_matches. rewrite (type_at_is T s HT i t Ht), Eu. cbn [obind].
  destruct (comp_decides T s HT HS O K (s_comp t) (s_comp u)) as (r & -> & R); [eapply refs_comp; eauto .. |]. cbn. destruct r; cbn.
  2: { apply accepts_no. intros [H _]. destruct (H j eq_refl) as (u' & Hu' & _ & X). same. apply R in X. discriminate. }
  destruct (Dp j u Hu) as [[E _]|(d & Ed & Hd & Ld)]; [apply (o_sup T O _ _ _ Ht Es) | congruence |].
  unfold get_depth. rewrite Ed. cbn. unfold MAX_WASM_SUBTYPING_DEPTH. destruct (Z.ltb_spec 63 (d + 1)) as [L|L].
  - apply accepts_no. intros (_ & d' & Hd' & L'). inversion Hd' as [i0 t0 Ht0 Hs0 | i0 t0 j0 d0 Ht0 Hs0 Hd0 Ei0 E0]; assert (t0 = t) by (unfold is_type in *; congruence); [congruence |].
    assert (j0 = j) by congruence. subst j0. assert (d0 = d) by (eapply depth_fun; eauto). lia.
  - apply accepts_yes. split.
    + intros j' Ej. injection Ej as <-. exists u. split; [assumption |]. split; [assumption | apply R; reflexivity].
    + exists (d + 1). split; [econstructor; eauto | lia].
Qed.
Lemma subtype_done i t s' : is_type T i t -> depths i -> check_subtype s i = Done s' -> exists d, s' = set_depth s i d /\ depth T i d /\ d <= 63.
Proof.
  intros Ht Dp. unfold check_subtype. rewrite (type_at_is T s HT i t Ht). cbn [obind]. intros H.
  apply obind_done in H. destruct H as ([] & _ & H). apply obind_done in H. destruct H as (d & H & E). inversion E; subst s'. exists d. split; [reflexivity |].
  destruct (s_super t) as [j|] eqn:Es; [| inversion H; subst; split; [econstructor; eauto | lia]].
  destruct (type_at_done T s HT j) as (u & Eu & Hu); [eapply refs_super; eauto |]. rewrite Eu in H. cbn [obind] in H.
  destruct (s_final u) eqn:Ef; [discriminate |]. apply obind_done in H. destruct H as (m & _ & H). destruct m; [| discriminate]. cbn in H.
  apply obind_done in H. destruct H as (d' & Ed & H).
  destruct (Dp j u Hu) as [[E' _]|(d1 & Ed1 & Hd & Ld)]; [apply (o_sup T O _ _ _ Ht Es) | congruence |].
  unfold get_depth in Ed. rewrite Ed1 in Ed. cbn in Ed. inversion Ed; subst.
  unfold MAX_WASM_SUBTYPING_DEPTH in H. destruct (Z.ltb_spec 63 (d' + 1)); [discriminate |]. inversion H; subst. split; [econstructor; eauto | lia].
Qed.
End Checks.

(** * The loop over the types of a new group *)
Fixpoint span (n : nat) (i : Z) : list Z := match n with O => [] | S n => i :: span n (i + 1) end.
Section Loop.
Variable T : list (subty Z).
Hypothesis O : ordered T.
Definition holds (s : store) : Prop := st_types s = T /\ st_super s = map s_super T.
Lemma valid_split i t : valid_type T i t <-> (comp_ok T (s_comp t) /\ super_ok T t /\ exists d, depth T i d /\ d <= 63) /\ clauses T i t.
Proof.
  split.
  - intros [A B C D E F G H]. split; [split; [split; assumption | split; assumption] | constructor; assumption].
  - intros (([A B] & C & D) & [E F G H]). constructor; assumption.
Qed.
Definition same_but_depth (s s' : store) : Prop :=
  st_types s' = st_types s /\ st_group_of s' = st_group_of s /\ st_super s' = st_super s /\ st_ranges s' = st_ranges s /\ st_canon s' = st_canon s.
Lemma loop_settled : forall n i s ids, holds s -> 0 <= i -> i + Z.of_nat n <= zlen T -> depths T s i -> settled (add_ids n i true s ids).
Proof.
  induction n as [|n IH]; intros i s ids [HT HS] L0 L D; cbn [add_ids]; [exact I |].
  destruct (nthz_ex T i) as [t Ht]; [lia |].
  apply settled_bind; [apply (subtype_settled T s HT HS O i t Ht D) |]. intros s' E.
  destruct (subtype_done T s HT O i t s' Ht D E) as (d & -> & Hd & Ld).
  apply settled_bind; [apply (descriptors_accepts T (set_depth s i d) HT O i t Ht) |]. intros [] _.
  apply IH; [split; assumption | lia | lia |].
  intros k u Hu Lk. cbn [set_depth st_depth find_depth]. destruct (Z.eqb_spec i k) as [->|N]; [right; exists d; auto |].
  apply (D k u Hu). lia.
Qed.
Lemma loop_done : forall n i s ids s' ids', holds s -> 0 <= i -> i + Z.of_nat n <= zlen T -> depths T s i ->
  add_ids n i true s ids = Done (s', ids') ->
  same_but_depth s s' /\ ids' = ids ++ span n i /\ depths T s' (i + Z.of_nat n) /\
  forall k t j u, i <= k < i + Z.of_nat n -> is_type T k t -> s_super t = Some j -> is_type T j u ->
    c_shared (s_comp t) = c_shared (s_comp u) /\ kind_of (s_comp t) = kind_of (s_comp u).
Proof.
  induction n as [|n IH]; intros i s ids s' ids' [HT HS] L0 L D H; cbn [add_ids span] in *.
  { inversion H; subst. repeat split; try reflexivity; [rewrite app_nil_r; reflexivity | replace (i + Z.of_nat 0) with i by lia; assumption | lia | lia]. }
  destruct (nthz_ex T i) as [t Ht]; [lia |].
  apply obind_done in H. destruct H as (s1 & E & H). apply obind_done in H. destruct H as ([] & _ & H).
  destruct (subtype_done T s HT O i t s1 Ht D E) as (d & -> & Hd & Ld).
  destruct (subtype_kind T s HT i t _ Ht E) as [_ Kt].
  eapply IH in H; [| split; assumption | lia | lia |].
  - destruct H as ((E1 & E2 & E3 & E4 & E5) & -> & D' & K). split; [repeat split; assumption |]. split; [rewrite <- app_assoc; reflexivity |].
    split; [replace (i + Z.of_nat (S n)) with (i + 1 + Z.of_nat n) by lia; assumption |].
    intros k t' j u Lk Ht' Es Hu. destruct (Z.eq_dec k i) as [->|N].
    + assert (t' = t) by (unfold is_type in *; congruence). subst t'. eauto.
    + apply (K k t' j u); [lia | assumption ..].
  - intros k u Hu Lk. cbn [set_depth st_depth find_depth]. destruct (Z.eqb_spec i k) as [->|N]; [right; exists d; auto |].
    apply (D k u Hu). lia.
Qed.
Lemma loop_accepts (K : kinds T) : forall n i s ids, holds s -> 0 <= i -> i + Z.of_nat n <= zlen T -> depths T s i ->
  accepts (add_ids n i true s ids) (forall k t, i <= k < i + Z.of_nat n -> is_type T k t -> valid_type T k t).
Proof.
  induction n as [|n IH]; intros i s ids [HT HS] L0 L D; cbn [add_ids].
  { apply accepts_yes. intros; lia. }
  destruct (nthz_ex T i) as [t Ht]; [lia |].
  eapply accepts_iff; [| apply accepts_bind with (Q := clauses T i t /\ forall k t, i + 1 <= k < i + 1 + Z.of_nat n -> is_type T k t -> valid_type T k t);
    [apply (subtype_accepts T s HT HS O K i t Ht D) |]].
  - split.
    + intros (A & B & C) k u Lk Hu. destruct (Z.eq_dec k i) as [->|N].
      * assert (u = t) by (unfold is_type in *; congruence). subst u. apply valid_split. auto.
      * apply C; [lia | assumption].
    + intros H. assert (V : valid_type T i t) by (apply H; [lia | assumption]). apply valid_split in V. destruct V as [V1 V2].
      split; [assumption |]. split; [assumption |]. intros k u Lk Hu. apply H; [lia | assumption].
  - intros s1 E _. destruct (subtype_done T s HT O i t s1 Ht D E) as (d & -> & Hd & Ld).
    apply accepts_bind; [apply (descriptors_accepts T (set_depth s i d) HT O i t Ht) |]. intros [] _ _.
    apply IH; [split; assumption | lia | lia |].
    intros k u Hu Lk. cbn [set_depth st_depth find_depth]. destruct (Z.eqb_spec i k) as [->|N]; [right; exists d; auto |].
    apply (D k u Hu). lia.
Qed.
Lemma loop_old : forall n i s ids, add_ids n i false s ids = Done (s, ids ++ span n i).
Proof. induction n as [|n IH]; intros i s ids; cbn [add_ids span]; [rewrite app_nil_r; reflexivity |]. rewrite IH, <- app_assoc. reflexivity. Qed.
End Loop.
