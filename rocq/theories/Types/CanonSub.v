(** The subtype and matching tests against their specification. *)
From Verif.Base Require Import Prelude.
From Verif.Types Require Import CanonModel CanonSpec CanonLemmas.

(** * Answers *)
Lemma decides_iff o (P Q : Prop) : (P <-> Q) -> decides o P -> decides o Q.
Proof. intros E (r & H & R). exists r. rewrite R. auto. Qed.
Lemma decides_done (b : bool) (P : Prop) : (b = true <-> P) -> decides (Done b) P.
Proof. intros H. exists b. auto. Qed.
Lemma decides_and a b (P Q : Prop) : decides a P -> (P -> decides b Q) -> decides (oand a b) (P /\ Q).
Proof.
  intros (r & -> & R) H. cbn. destruct r.
  - destruct H as (r' & -> & R'); [apply R; reflexivity |]. exists r'. rewrite R'. assert P by (apply R; reflexivity). split; [reflexivity | tauto].
  - exists false. split; [reflexivity |]. split; [discriminate |]. intros [p _]. apply R in p. discriminate.
Qed.
Lemma all2_decides {A B} (p : A -> B -> outcome bool) (P : A -> B -> Prop) l m :
  (forall a b, In a l -> In b m -> decides (p a b) (P a b)) ->
  decides (all2 p l m) (forall i a b, nthz l i = Some a -> nthz m i = Some b -> P a b).
Proof.
  revert m; induction l as [|a l IH]; intros [|b m] H; cbn [all2].
  - apply decides_done. split; [intros _ i x y Hx; apply nthz_some in Hx; unfold zlen in Hx; cbn in Hx; lia | reflexivity].
  - apply decides_done. split; [intros _ i x y Hx; apply nthz_some in Hx; unfold zlen in Hx; cbn in Hx; lia | reflexivity].
  - apply decides_done. split; [intros _ i x y _ Hx; apply nthz_some in Hx; unfold zlen in Hx; cbn in Hx; lia | reflexivity].
  - eapply decides_iff; [| eapply decides_and; [apply H; left; reflexivity | intros _; apply IH; intros; apply H; right; assumption]].
    split.
    + intros [h t] i x y Hx Hy. destruct (Z.eq_dec i 0) as [->|N].
      * rewrite nthz_cons0 in Hx; rewrite nthz_cons0 in Hy. congruence.
      * pose proof (nthz_some _ _ _ Hx). rewrite nthz_cons in Hx by lia; rewrite nthz_cons in Hy by lia. eauto.
    + intros F. split; [apply (F 0); reflexivity |]. intros i x y Hx Hy.
      pose proof (nthz_some _ _ _ Hx). apply (F (i + 1)); rewrite nthz_cons by lia; replace (i + 1 - 1) with i by lia; assumption.
Qed.
Lemma Forall2_length {A B} (P : A -> B -> Prop) l m : Forall2 P l m -> List.length l = List.length m.
Proof. intros F; induction F; cbn; congruence. Qed.
Lemma Forall2_nthz {A B} (P : A -> B -> Prop) l m :
  Forall2 P l m <-> List.length l = List.length m /\ forall i a b, nthz l i = Some a -> nthz m i = Some b -> P a b.
Proof.
  split.
  - intros F. split; [eapply Forall2_length; eauto |]. induction F as [|a b l m p F IH]; intros i x y Hx Hy.
    + apply nthz_some in Hx; unfold zlen in Hx; cbn in Hx; lia.
    + destruct (Z.eq_dec i 0) as [->|N]; [rewrite nthz_cons0 in Hx; rewrite nthz_cons0 in Hy; congruence |].
      pose proof (nthz_some _ _ _ Hx). rewrite nthz_cons in Hx by lia; rewrite nthz_cons in Hy by lia. eauto.
  - revert m; induction l as [|a l IH]; intros [|b m] [L F]; try discriminate; [constructor |].
    constructor; [apply (F 0); reflexivity |]. apply IH. split; [cbn in L; lia |]. intros i x y Hx Hy.
    pose proof (nthz_some _ _ _ Hx). apply (F (i + 1)); rewrite nthz_cons by lia; replace (i + 1 - 1) with i by lia; assumption.
Qed.
Lemma Forall2_flip {A B} (P : A -> B -> Prop) l m : Forall2 P l m <-> Forall2 (fun b a => P a b) m l.
Proof. split; intros F; induction F; constructor; auto. Qed.

(** * Well-formed lists of types *)
Section Sub.
Variable T : list (subty Z).
Record ordered : Prop := mkOrdered {
  o_sup : forall i t j, is_type T i t -> s_super t = Some j -> 0 <= j < i;
  o_refs : forall i t, is_type T i t -> Forall (defined T) (refs_sub t)
}.
Definition kinds : Prop := forall i t j u, is_type T i t -> s_super t = Some j -> is_type T j u ->
  c_shared (s_comp t) = c_shared (s_comp u) /\ kind_of (s_comp t) = kind_of (s_comp u).

(** ** Declared ancestors *)
Inductive anc : Z -> Z -> Prop :=
| anc_refl a : anc a a
| anc_step a t c b : is_type T a t -> s_super t = Some c -> anc c b -> anc a b.
Lemma anc_trans a b c : anc a b -> anc b c -> anc a c.
Proof. intros H; revert c; induction H; intros; [assumption | econstructor; eauto]. Qed.
Lemma anc_le : ordered -> forall a b, anc a b -> a = b \/ b < a.
Proof. intros O a b H; induction H; [left; reflexivity | right]. pose proof (o_sup O _ _ _ H H0). lia. Qed.
Lemma anc_antisym : ordered -> forall a b, anc a b -> anc b a -> a = b.
Proof. intros O a b H1 H2. apply (anc_le O) in H1. apply (anc_le O) in H2. lia. Qed.
Lemma anc_sub a b : anc a b -> heap_sub T (HC a) (HC b).
Proof. intros H; induction H; [apply hs_refl |]. eapply hs_trans; [eapply hs_declared; eauto | assumption]. Qed.
Lemma anc_kinds : kinds -> forall a b t u, anc a b -> is_type T a t -> is_type T b u ->
  c_shared (s_comp t) = c_shared (s_comp u) /\ kind_of (s_comp t) = kind_of (s_comp u).
Proof.
  intros K a b t u H; revert t u; induction H as [a | a t' c b Ht Hs H IH]; intros t u H1 H2.
  - unfold is_type in *. assert (t = u) by congruence. subst. auto.
  - assert (t' = t) by (unfold is_type in *; congruence). subst t'.
    assert (exists v, is_type T c v) as [v Hv].
    { inversion H; subst; [eauto | eauto]. }
    destruct (K _ _ _ _ Ht Hs Hv) as [-> ->]. eauto.
Qed.
Lemma anc_defined : ordered -> forall a b, anc a b -> defined T a -> defined T b.
Proof.
  intros O a b H. induction H as [| a t c b Ht Hs H IH]; [auto |]. intros D. apply IH.
  pose proof (o_sup O _ _ _ Ht Hs). unfold defined in *. lia.
Qed.

(** ** The hierarchy in normal form *)
Lemma aht_refl a : aht_is_subtype a a = true. Proof. unfold aht_is_subtype. destruct (aht_dec a a); congruence. Qed.
Lemma aht_trans a b c : aht_is_subtype a b = true -> aht_is_subtype b c = true -> aht_is_subtype a c = true.
Proof. destruct a, b; try discriminate; destruct c; try discriminate; reflexivity. Qed.
Lemma aht_antisym a b : aht_is_subtype a b = true -> aht_is_subtype b a = true -> a = b.
Proof. destruct a, b; try discriminate; reflexivity. Qed.
Lemma aht_below a b : below a b -> aht_is_subtype a b = true. Proof. destruct 1; reflexivity. Qed.
Lemma aht_sub sh a b : aht_is_subtype a b = true -> heap_sub T (HA sh a) (HA sh b).
Proof.
  assert (E : forall a b, below a b -> heap_sub T (HA sh a) (HA sh b)) by (intros; apply hs_abs; assumption).
  destruct a, b; intros H; try discriminate; try apply hs_refl;
    first [ apply E; constructor
          | eapply hs_trans; [apply E; constructor | apply E; constructor]
          | eapply hs_trans; [apply E; apply none_i31 | eapply hs_trans; [apply E; constructor | apply E; constructor]]
          | eapply hs_trans; [apply E; apply none_i31 | apply E; constructor] ].
Qed.
Definition nf (a b : heap Z) : Prop :=
  match a, b with
  | HA sa ta, HA sb tb => sa = sb /\ aht_is_subtype ta tb = true
  | (HC i | HX i), HA sh t => exists u, is_type T i u /\ c_shared (s_comp u) = sh /\ aht_is_subtype (kind_of (s_comp u)) t = true
  | HA sh t, (HC i | HX i) => exists u, is_type T i u /\ c_shared (s_comp u) = sh /\ t = bottom_of (s_comp u)
  | (HC i | HX i), HC j => anc i j
  | HX i, HX j => i = j
  | HC _, HX _ => False
  end.
Lemma nf_refl h : nf h h.
Proof. destruct h; cbn; [split; [reflexivity | apply aht_refl] | apply anc_refl | reflexivity]. Qed.
Lemma kind_bottom (c c' : comp Z) : kind_of c = kind_of c' -> bottom_of c = bottom_of c'.
Proof. unfold kind_of, bottom_of. destruct (c_inner c), (c_inner c'); congruence. Qed.
Lemma below_bottom (c : comp Z) t : aht_is_subtype t (bottom_of c) = true -> t = bottom_of c.
Proof. unfold bottom_of. destruct (c_inner c), t; try discriminate; reflexivity. Qed.
Lemma bottom_kind (c : comp Z) t : aht_is_subtype (kind_of c) t = true -> aht_is_subtype (bottom_of c) t = true.
Proof. unfold kind_of, bottom_of. destruct (c_inner c), t; try discriminate; reflexivity. Qed.
Lemma kind_not_bottom (c c' : comp Z) : aht_is_subtype (kind_of c) (bottom_of c') = true -> False.
Proof. unfold kind_of, bottom_of. destruct (c_inner c), (c_inner c'); discriminate. Qed.
Ltac same := match goal with H : is_type T ?i ?t, H' : is_type T ?i ?u |- _ => assert (t = u) by (unfold is_type in *; congruence); subst; clear H' end.
Lemma anc_end : ordered -> forall i j t, anc i j -> is_type T i t -> exists u, is_type T j u.
Proof.
  intros O i j t A H. assert (D : defined T j) by (eapply anc_defined; eauto; apply nthz_some in H; exact H).
  apply nthz_ex in D. exact D.
Qed.
Lemma anc_start : forall i j u, anc i j -> is_type T j u -> exists t, is_type T i t.
Proof. intros i j u A H. inversion A; subst; eauto. Qed.
Lemma nf_trans : ordered -> kinds -> forall a b c, nf a b -> nf b c -> nf a c.
Proof.
  intros O K [sa ta|i|i] [sb tb|j|j] [sc tc|k|k]; cbn; intros H1 H2;
    repeat match goal with H : exists _, _ |- _ => destruct H as (? & ? & ? & ?) | H : _ /\ _ |- _ => destruct H end; subst; try contradiction; try same; auto.
  all: try solve [split; [reflexivity | eapply aht_trans; eassumption]].
  all: try solve [eexists; split; [eassumption |]; split; [reflexivity |]; first [eapply aht_trans; eassumption | apply below_bottom; assumption]].
  all: try solve [split; [reflexivity | apply bottom_kind; assumption]].
  all: try solve [exfalso; eapply kind_not_bottom; eassumption].
  all: try solve [eapply anc_trans; eassumption].
  all: try solve [match goal with A : anc ?i ?j, H : is_type T ?i ?t |- exists u, is_type T ?j u /\ _ =>
      destruct (anc_end O _ _ _ A H) as [v Hv]; destruct (anc_kinds K _ _ _ _ A H Hv) as [E1 E2]; exists v;
      split; [exact Hv |]; split; [congruence | apply kind_bottom; assumption] end].
  all: try solve [match goal with A : anc ?i ?j, H : is_type T ?j ?t |- exists u, is_type T ?i u /\ _ =>
      destruct (anc_start _ _ _ A H) as [v Hv]; destruct (anc_kinds K _ _ _ _ A Hv H) as [E1 E2]; exists v;
      split; [exact Hv |]; split; [congruence | rewrite E2; assumption] end].
  all: try solve [eexists; split; [eassumption |]; split; [congruence | assumption]].
  all: try solve [eexists; split; [eassumption |]; split; [congruence | congruence]].
Qed.
Lemma nf_spec : ordered -> kinds -> forall a b, heap_sub T a b <-> nf a b.
Proof.
  intros O K a b. split.
  - intros H; induction H as [h | h1 h2 h3 _ IH1 _ IH2 | sh a b B | i t j Ht Hs | i | i t Ht | i t Ht].
    + apply nf_refl.
    + eapply nf_trans; eauto.
    + split; [reflexivity | apply aht_below; assumption].
    + cbn. econstructor; eauto. constructor.
    + cbn. constructor.
    + cbn. exists t. split; [assumption |]. split; [reflexivity | apply aht_refl].
    + cbn. exists t. auto.
  - destruct a as [sa ta|i|i], b as [sb tb|j|j]; cbn; intros H; repeat match goal with H : exists _, _ |- _ => destruct H as (? & ? & ? & ?) | H : _ /\ _ |- _ => destruct H end; subst; try contradiction.
    + apply aht_sub; assumption.
    + eapply hs_trans; [apply hs_bottom; eassumption | apply hs_exact].
    + apply hs_bottom; assumption.
    + eapply hs_trans; [apply hs_kind; eassumption | apply aht_sub; assumption].
    + apply anc_sub; assumption.
    + eapply hs_trans; [apply hs_exact |]. eapply hs_trans; [apply hs_kind; eassumption | apply aht_sub; assumption].
    + eapply hs_trans; [apply hs_exact | apply anc_sub; assumption].
    + apply hs_refl.
Qed.
Lemma heap_sub_antisym : ordered -> kinds -> forall a b, heap_sub T a b -> heap_sub T b a -> a = b.
Proof.
  intros O K a b H1 H2. apply (nf_spec O K) in H1. apply (nf_spec O K) in H2.
  destruct a as [sa ta|i|i], b as [sb tb|j|j]; cbn in *; repeat match goal with H : exists _, _ |- _ => destruct H as (? & ? & ? & ?) | H : _ /\ _ |- _ => destruct H end; subst; try contradiction; try reflexivity.
  - f_equal. apply aht_antisym; assumption.
  - same. exfalso; eapply kind_not_bottom; eassumption.
  - same. exfalso; eapply kind_not_bottom; eassumption.
  - same. exfalso; eapply kind_not_bottom; eassumption.
  - f_equal. apply anc_antisym; assumption.
  - same. exfalso; eapply kind_not_bottom; eassumption.
Qed.

(** * The tests *)
Variable s : store.
Hypothesis HT : st_types s = T.
Hypothesis HS : st_super s = map s_super T.
Hypothesis O : ordered.

Lemma type_at_done i : defined T i -> exists t, type_at s i = Done t /\ is_type T i t.
Proof. intros D. apply nthz_ex in D. destruct D as [t D]. exists t. unfold type_at. rewrite HT, D. auto. Qed.
Lemma type_at_is i t : is_type T i t -> type_at s i = Done t.
Proof. unfold is_type, type_at. rewrite HT. intros ->. reflexivity. Qed.
Lemma id_loop_decides b : forall fuel a, defined T a -> (Z.to_nat a < fuel)%nat -> decides (id_loop fuel s a b) (anc a b).
Proof.
  induction fuel as [|n IH]; intros a D L; [lia |]. cbn [id_loop].
  destruct (Z.eqb_spec a b) as [->|N]; [apply decides_done; split; [intros _; constructor | reflexivity] |].
  destruct (nthz_ex _ _ D) as [t Ht]. unfold supertype_of. rewrite HS, nthz_map, Ht. cbn.
  destruct (s_super t) as [c|] eqn:Es.
  - pose proof (o_sup O _ _ _ Ht Es) as B. unfold defined in D.
    eapply decides_iff; [| apply IH; [unfold defined; lia | lia]].
    split; intros A; [econstructor; eauto |]. inversion A; subst; [congruence |]. unfold is_type in *. assert (t0 = t) by congruence. subst. congruence.
  - apply decides_done. split; [discriminate |]. intros A. inversion A; subst; [congruence |]. unfold is_type in *. assert (t0 = t) by congruence. subst. congruence.
Qed.
Lemma id_decides a b : defined T a -> decides (id_is_subtype s a b) (anc a b).
Proof. intros D. apply id_loop_decides; [assumption |]. rewrite HT. unfold defined, zlen in D. lia. Qed.

Definition ref_nf (a b : rty Z) : Prop := (rt_null a = true -> rt_null b = true) /\ nf (rt_heap a) (rt_heap b).
Lemma ref_decides_nf a b : Forall (defined T) (refs_heap (rt_heap a)) -> Forall (defined T) (refs_heap (rt_heap b)) ->
  decides (ref_is_subtype s a b) (ref_nf a b).
Proof.
  intros Da Db. unfold ref_is_subtype.
  destruct (rty_dec Z.eq_dec a b) as [->|N1]; [apply decides_done; split; [intros _; split; [auto | apply nf_refl] | reflexivity] |].
  destruct (rt_null a && negb (rt_null b)) eqn:En.
  { apply decides_done. split; [discriminate |]. intros [H _]. destruct (rt_null a), (rt_null b); try discriminate; specialize (H eq_refl); discriminate. }
  assert (Hn : rt_null a = true -> rt_null b = true) by (destruct (rt_null a), (rt_null b); auto; discriminate).
  destruct (heap_dec Z.eq_dec (rt_heap a) (rt_heap b)) as [E|N2].
  { apply decides_done. split; [intros _; split; [assumption | rewrite E; apply nf_refl] | reflexivity]. }
  assert (W : forall o, decides o (nf (rt_heap a) (rt_heap b)) -> decides o (ref_nf a b)).
  { intros o. apply decides_iff. unfold ref_nf. tauto. }
  assert (KA : forall i sh t, defined T i ->
    decides (do st <- type_at s i in
             let c := s_comp st in
             if negb (Bool.eqb (c_shared c) sh) then Done false
             else Done match t with Any | Eq => is_array c || is_struct c | Struct => is_struct c | Array => is_array c | Func => is_func c | Cont => is_cont c | _ => false end)
            (exists u, is_type T i u /\ c_shared (s_comp u) = sh /\ aht_is_subtype (kind_of (s_comp u)) t = true)).
  { intros i sh t D. destruct (type_at_done i D) as (u & -> & Hu). cbn. destruct (Bool.eqb (c_shared (s_comp u)) sh) eqn:Es; cbn.
    - apply Bool.eqb_prop in Es. apply decides_done. unfold kind_of, is_array, is_struct, is_func, is_cont. split.
      + intros H. exists u. split; [assumption |]. split; [assumption |]. revert H. destruct (c_inner (s_comp u)), t; cbn; try discriminate; reflexivity.
      + intros (u' & Hu' & _ & H). same. revert H. destruct (c_inner (s_comp u')), t; cbn; try discriminate; reflexivity.
    - apply Bool.eqb_false_iff in Es. apply decides_done. split; [discriminate |]. intros (u' & Hu' & E & _). same. congruence. }
  assert (AK : forall i sh t, defined T i ->
    decides (do st <- type_at s i in
             let c := s_comp st in
             if negb (Bool.eqb sh (c_shared c)) then Done false
             else Done match t with ANone => is_array c || is_struct c | NoFunc => is_func c | NoCont => is_cont c | _ => false end)
            (exists u, is_type T i u /\ c_shared (s_comp u) = sh /\ t = bottom_of (s_comp u))).
  { intros i sh t D. destruct (type_at_done i D) as (u & -> & Hu). cbn. destruct (Bool.eqb sh (c_shared (s_comp u))) eqn:Es; cbn.
    - apply Bool.eqb_prop in Es. apply decides_done. unfold bottom_of, is_array, is_struct, is_func, is_cont. split.
      + intros H. exists u. split; [assumption |]. split; [auto |]. revert H. destruct (c_inner (s_comp u)), t; cbn; try discriminate; reflexivity.
      + intros (u' & Hu' & _ & ->). same. destruct (c_inner (s_comp u')); reflexivity.
    - apply Bool.eqb_false_iff in Es. apply decides_done. split; [discriminate |]. intros (u' & Hu' & E & _). same. congruence. }
  apply W. destruct (rt_heap a) as [sa ta|i|i] eqn:Ea, (rt_heap b) as [sb tb|j|j] eqn:Eb; cbn [nf refs_heap] in *;
    repeat match goal with H : Forall _ (_ :: _) |- _ => inversion H; clear H; subst end; auto.
  - apply decides_done. rewrite andb_true_iff, Bool.eqb_true_iff. tauto.
  - apply id_decides; assumption.
  - apply decides_done. split; [discriminate | contradiction].
  - apply id_decides; assumption.
  - apply decides_done. rewrite Z.eqb_eq. tauto.
Qed.
Hypothesis K : kinds.
Lemma ref_decides a b : Forall (defined T) (refs_heap (rt_heap a)) -> Forall (defined T) (refs_heap (rt_heap b)) ->
  decides (ref_is_subtype s a b) (ref_sub T a b).
Proof.
  intros Da Db. eapply decides_iff; [| apply ref_decides_nf; assumption].
  unfold ref_nf, ref_sub. rewrite (nf_spec O K). tauto.
Qed.
Lemma val_sub_refl v : val_sub T v v.
Proof. destruct v; cbn; try reflexivity. split; [auto | apply hs_refl]. Qed.
Lemma val_is_decides a b : Forall (defined T) (refs_val a) -> Forall (defined T) (refs_val b) -> decides (val_is_subtype s a b) (val_sub T a b).
Proof.
  intros Da Db. unfold val_is_subtype. destruct (vty_dec Z.eq_dec a b) as [->|N].
  - apply decides_done. split; [intros _; apply val_sub_refl | reflexivity].
  - destruct a, b; cbn [val_sub]; try (apply decides_done; split; [discriminate | first [contradiction | congruence]]). apply ref_decides; assumption.
Qed.
Lemma val_decides a b : Forall (defined T) (refs_val a) -> Forall (defined T) (refs_val b) -> decides (val_matches s a b) (val_sub T a b).
Proof.
  intros Da Db. destruct a, b; unfold val_matches, val_sub;
    try (match goal with |- context [vty_dec ?e ?x ?y] => destruct (vty_dec e x y) end);
    try (apply decides_done; split; (congruence || contradiction || discriminate || reflexivity)). apply ref_decides; assumption.
Qed.
Lemma sto_decides a b : Forall (defined T) (refs_sto a) -> Forall (defined T) (refs_sto b) -> decides (sto_matches s a b) (sto_sub T a b).
Proof.
  intros Da Db. destruct a, b; unfold sto_matches, sto_sub; try (apply decides_done; split; (congruence || contradiction || discriminate || reflexivity)).
  apply val_decides; assumption.
Qed.
Lemma fld_decides a b : Forall (defined T) (refs_sto (fd_elem a)) -> Forall (defined T) (refs_sto (fd_elem b)) -> decides (fld_matches s a b) (fld_sub T a b).
Proof.
  intros Da Db. unfold fld_matches. destruct (sto_decides (fd_elem a) (fd_elem b) Da Db) as (r & -> & R). cbn. unfold fld_sub.
  destruct r; cbn.
  - assert (S1 : sto_sub T (fd_elem a) (fd_elem b)) by (apply R; reflexivity).
    destruct (fd_mut a) eqn:Ma, (fd_mut b) eqn:Mb; cbn.
    + eapply decides_iff; [| apply sto_decides; assumption]. tauto.
    + apply decides_done. split; [discriminate |]. intros (E & _). discriminate.
    + apply decides_done. split; [discriminate |]. intros (E & _). discriminate.
    + apply decides_done. split; [|reflexivity]. intros _. split; [reflexivity |]. split; [assumption | discriminate].
  - apply decides_done. split; [discriminate |]. intros (_ & E & _). apply R in E. discriminate.
Qed.
Lemma Forall_flat_in {A} (f : A -> list Z) l a : Forall (defined T) (flat_map f l) -> In a l -> Forall (defined T) (f a).
Proof. intros H I. rewrite Forall_forall in *. intros x Hx. apply H. apply in_flat_map. eauto. Qed.
Lemma comp_decides a b : Forall (defined T) (refs_inner (c_inner a)) -> Forall (defined T) (refs_inner (c_inner b)) ->
  decides (comp_matches s a b) (comp_sub T a b).
Proof.
  intros Da Db. unfold comp_matches, comp_sub.
  destruct (Bool.eqb (c_shared a) (c_shared b)) eqn:Es; cbn [negb].
  2: { apply Bool.eqb_false_iff in Es. apply decides_done. split; [discriminate | tauto]. }
  apply Bool.eqb_prop in Es.
  assert (W : forall o P, decides o P -> decides o (c_shared a = c_shared b /\ P)) by (intros o P; apply decides_iff; tauto).
  apply W. clear W.
  destruct (c_inner a) as [pa ra|x|fa|i], (c_inner b) as [pb rb|y|fb|j]; cbn [refs_inner] in *; try (apply decides_done; split; [discriminate | contradiction]).
  - apply Forall_app in Da, Db. destruct Da as [Da1 Da2], Db as [Db1 Db2].
    destruct (Nat.eqb_spec (List.length pa) (List.length pb)) as [L1|L1]; cbn [negb orb].
    2: { apply decides_done. split; [discriminate |]. intros [F _]. apply Forall2_length in F. congruence. }
    destruct (Nat.eqb_spec (List.length ra) (List.length rb)) as [L2|L2]; cbn [negb].
    2: { apply decides_done. split; [discriminate |]. intros [_ F]. apply Forall2_length in F. congruence. }
    pose proof (all2_decides (fun x y => val_matches s y x) (fun x y => val_sub T y x) pa pb
      (fun a b Ha Hb => val_decides b a (Forall_flat_in _ _ _ Db1 Hb) (Forall_flat_in _ _ _ Da1 Ha))) as D1.
    pose proof (all2_decides (val_matches s) (val_sub T) ra rb
      (fun a b Ha Hb => val_decides a b (Forall_flat_in _ _ _ Da2 Ha) (Forall_flat_in _ _ _ Db2 Hb))) as D2.
    eapply decides_iff; [| apply (decides_and _ _ _ _ D1 (fun _ => D2))].
    rewrite (Forall2_flip _ pb pa), !Forall2_nthz. tauto.
  - apply fld_decides; assumption.
  - destruct (Nat.leb_spec (List.length fb) (List.length fa)) as [L|L].
    + eapply decides_iff; [| apply all2_decides; intros u v Hu Hv; apply fld_decides; [exact (Forall_flat_in _ _ _ Da Hu) | exact (Forall_flat_in _ _ _ Db Hv)]].
      split.
      * intros H. exists (firstn (List.length fb) fa), (skipn (List.length fb) fa). split; [symmetry; apply firstn_skipn |].
        apply Forall2_nthz. split; [rewrite firstn_length; lia |]. intros k u v Hu Hv. apply (H k); [| assumption].
        rewrite <- (firstn_skipn (List.length fb) fa). apply nthz_app_some. exact Hu.
      * intros (same & rest & -> & F) k u v Hu Hv. apply Forall2_nthz in F. destruct F as [FL F]. apply (F k); [| assumption].
        rewrite nthz_app_l in Hu; [assumption |]. pose proof (nthz_some _ _ _ Hv). unfold zlen in *. lia.
    + apply decides_done. split; [discriminate |]. intros (same & rest & -> & F). apply Forall2_length in F. rewrite app_length in L. lia.
  - inversion Da; inversion Db; subst. destruct (Z.eqb_spec i j) as [->|N].
    + apply decides_done. split; [intros _; apply hs_refl | reflexivity].
    + eapply decides_iff; [| apply ref_decides; assumption]. unfold ref_sub; cbn. tauto.
Qed.
End Sub.
