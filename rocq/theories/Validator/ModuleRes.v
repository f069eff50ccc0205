(** What a module answers is what the typing rules ask of it ([res_ok]). *)
From Verif.Base Require Import Prelude.
From Verif.Types Require Import RefModel CodecModel CanonModel CanonSpec CanonLemmas CanonSub CanonTop.
From Verif.Validator Require Import State TypeSpec Module.

Definition up (h : heap Z) : hp := m_heap UId h.
Lemma up_inj a b : up a = up b -> a = b.
Proof. destruct a, b; cbn; intros H; inversion H; congruence. Qed.
Section Facts.
Variable s : store.
Let T := st_types s.
Hypothesis HS : st_super s = map s_super T.
Hypothesis O : ordered T.
Hypothesis K : kinds T.

Definition hsub (a b : hp) : bool := answer false (rf_is_subtype s (mkR false a) (mkR false b)).
Definition hshared (a : hp) : bool := answer false (rf_is_shared s (mkR false a)).

Lemma anc_undefined i j : anc T i j -> i = j \/ defined T i.
Proof. intros A. inversion A; subst; [auto |]. right. eapply nthz_some; eauto. Qed.
Lemma type_at_cases i : (exists t, type_at s i = Done t /\ is_type T i t) \/ (type_at s i = Panicked /\ forall t, ~ is_type T i t).
Proof. unfold type_at, is_type. fold T. destruct (nthz T i) eqn:E; cbn; [left; eauto | right; split; [reflexivity | congruence]]. Qed.
Lemma id_true i j : id_is_subtype s i j = Done true <-> anc T i j.
Proof.
  destruct (type_at_cases i) as [(t & _ & Ht)|(_ & N)].
  - assert (D : defined T i) by (eapply nthz_some; eauto). destruct (id_decides T s eq_refl HS O i j D) as (r & Er & R). rewrite Er. rewrite <- R. split; congruence.
  - split.
    + unfold id_is_subtype. cbn [id_loop]. destruct (Z.eqb_spec i j) as [->|Nj]; [intros _; constructor |].
      unfold supertype_of. rewrite HS, nthz_map. fold T. destruct (nthz T i) eqn:E; [exfalso; eapply N; exact E | discriminate].
    + intros A. inversion A; subst; [| exfalso; eapply N; eassumption]. unfold id_is_subtype. cbn [id_loop]. rewrite Z.eqb_refl. reflexivity.
Qed.
Lemma hsub_up x y : hsub (up x) (up y) = true <-> nf T x y.
Proof.
  unfold hsub, rf_is_subtype. destruct (rty_dec uidx_dec _ _) as [E|N].
  { injection E as E. apply up_inj in E. subst. split; [intros _; apply nf_refl | reflexivity]. }
  cbn [rt_null rt_heap andb negb]. destruct (heap_dec uidx_dec _ _) as [E|N2]; [exfalso; apply N; f_equal; assumption |].
  assert (KA : forall i sh t, answer false (
             do st <- type_of s (UId i) in
             let c := s_comp st in
             if negb (Bool.eqb (c_shared c) sh) then Done false
             else Done match t with Any | Eq => is_array c || is_struct c | Struct => is_struct c | Array => is_array c | Func => is_func c | Cont => is_cont c | _ => false end) = true <->
            (exists u, is_type T i u /\ c_shared (s_comp u) = sh /\ aht_is_subtype (kind_of (s_comp u)) t = true)).
  { intros i sh t. unfold type_of, core_id. cbn [obind]. destruct (type_at_cases i) as [(u & -> & Hu)|(-> & Nu)]; cbn.
    2: { split; [discriminate |]. intros (u & Hu & _). exfalso; eapply Nu; eauto. }
    destruct (Bool.eqb (c_shared (s_comp u)) sh) eqn:Es; cbn.
    - apply Bool.eqb_prop in Es. unfold kind_of, is_array, is_struct, is_func, is_cont. split.
      + intros H. exists u. split; [assumption |]. split; [assumption |]. revert H. destruct (c_inner (s_comp u)), t; cbn; try discriminate; reflexivity.
      + intros (u' & Hu' & _ & H). unfold is_type in *. assert (u' = u) by congruence. subst u'. revert H. destruct (c_inner (s_comp u)), t; cbn; try discriminate; reflexivity.
    - apply Bool.eqb_false_iff in Es. split; [discriminate |]. intros (u' & Hu' & E & _). unfold is_type in *. congruence. }
  assert (AK : forall i sh t, answer false (
             do st <- type_of s (UId i) in
             let c := s_comp st in
             if negb (Bool.eqb sh (c_shared c)) then Done false
             else Done match t with ANone => is_array c || is_struct c | NoFunc => is_func c | NoCont => is_cont c | _ => false end) = true <->
            (exists u, is_type T i u /\ c_shared (s_comp u) = sh /\ t = bottom_of (s_comp u))).
  { intros i sh t. unfold type_of, core_id. cbn [obind]. destruct (type_at_cases i) as [(u & -> & Hu)|(-> & Nu)]; cbn.
    2: { split; [discriminate |]. intros (u & Hu & _). exfalso; eapply Nu; eauto. }
    destruct (Bool.eqb sh (c_shared (s_comp u))) eqn:Es; cbn.
    - apply Bool.eqb_prop in Es. unfold bottom_of, is_array, is_struct, is_func, is_cont. split.
      + intros H. exists u. split; [assumption |]. split; [auto |]. revert H. destruct (c_inner (s_comp u)), t; cbn; try discriminate; reflexivity.
      + intros (u' & Hu' & _ & ->). unfold is_type in *. assert (u' = u) by congruence. subst u'. destruct (c_inner (s_comp u)); reflexivity.
    - apply Bool.eqb_false_iff in Es. split; [discriminate |]. intros (u' & Hu' & E & _). unfold is_type in *. congruence. }
  assert (B : forall o : outcome bool, answer false o = true <-> o = Done true) by (intros [[]| | |]; cbn; split; congruence).
  destruct x as [sa ta|i|i], y as [sb tb|j|j]; cbn [up m_heap nf]; auto.
  - cbn. rewrite andb_true_iff, Bool.eqb_true_iff. tauto.
  - rewrite B. apply id_true.
  - split; [discriminate | contradiction].
  - rewrite B. apply id_true.
  - cbn. rewrite Z.eqb_eq. tauto.
Qed.
Lemma down (a : hp) : (exists x, a = up x) \/ (exists u, (a = HC u \/ a = HX u) /\ core_id u = Panicked).
Proof.
  destruct a as [sh t|u|u]; [left; exists (HA sh t); reflexivity | |]; (destruct u as [i|i|i]; [right | right | left]).
  all: try (eexists; split; [eauto | reflexivity]).
  - exists (HC i). reflexivity.
  - exists (HX i). reflexivity.
Qed.
Lemma hsub_spec a b : hsub a b = true <-> a = b \/ exists x y, a = up x /\ b = up y /\ nf T x y.
Proof.
  split.
  - intros H. destruct (down a) as [[x ->]|(u & Hu & Eu)], (down b) as [[y ->]|(v & Hv & Ev)].
    + right. exists x, y. rewrite <- hsub_up. auto.
    + left. revert H. unfold hsub, rf_is_subtype. destruct (rty_dec uidx_dec _ _) as [E|N]; [injection E; auto |].
      cbn [rt_null rt_heap andb negb]. destruct (heap_dec uidx_dec _ _) as [E|N2]; [auto |]. unfold type_of.
      destruct x, Hv as [->| ->]; cbn [up m_heap]; rewrite ?Ev; cbn; discriminate.
    + left. revert H. unfold hsub, rf_is_subtype. destruct (rty_dec uidx_dec _ _) as [E|N]; [injection E; auto |].
      cbn [rt_null rt_heap andb negb]. destruct (heap_dec uidx_dec _ _) as [E|N2]; [auto |]. unfold type_of.
      destruct y, Hu as [->| ->]; cbn [up m_heap]; rewrite ?Eu; cbn; discriminate.
    + left. revert H. unfold hsub, rf_is_subtype. destruct (rty_dec uidx_dec _ _) as [E|N]; [injection E; auto |].
      cbn [rt_null rt_heap andb negb]. destruct (heap_dec uidx_dec _ _) as [E|N2]; [auto |]. unfold type_of.
      destruct Hu as [->| ->], Hv as [->| ->]; rewrite ?Eu; cbn; discriminate.
  - intros [->|(x & y & -> & -> & H)]; [| apply hsub_up; assumption].
    unfold hsub, rf_is_subtype. destruct (rty_dec uidx_dec _ _) as [E|N]; [reflexivity | congruence].
Qed.
Lemma hsub_trans a b c : hsub a b = true -> hsub b c = true -> hsub a c = true.
Proof.
  rewrite !hsub_spec. intros [->|(x & y & -> & -> & H1)]; [tauto |]. intros [<-|(y' & z & E & -> & H2)]; [right; eauto |].
  apply up_inj in E. subst y'. right. exists x, z. split; [reflexivity |]. split; [reflexivity |]. eapply (nf_trans T O K); eauto.
Qed.
Lemma hsub_abs sa sb ta tb : hsub (HA sa ta) (HA sb tb) = Bool.eqb sa sb && aht_is_subtype ta tb.
Proof.
  apply Bool.eq_iff_eq_true. rewrite (hsub_up (HA sa ta) (HA sb tb)). cbn [nf]. rewrite andb_true_iff, Bool.eqb_true_iff. tauto.
Qed.
Lemma hsub_shared a b : hsub a b = true -> hshared a = hshared b.
Proof.
  rewrite hsub_spec. intros [->|(x & y & -> & -> & H)]; [reflexivity |].
  assert (Sh : forall i, hshared (HC (UId i)) = match nthz T i with Some t => c_shared (s_comp t) | None => false end).
  { intros i. unfold hshared, rf_is_shared, type_of, core_id. cbn. unfold type_at. fold T. destruct (nthz T i); reflexivity. }
  assert (Sx : forall i, hshared (HX (UId i)) = match nthz T i with Some t => c_shared (s_comp t) | None => false end) by (intros i; apply (Sh i)).
  assert (Sa : forall sh t, hshared (HA sh t) = sh) by reflexivity.
  assert (An : forall i j, anc T i j -> hshared (HC (UId i)) = hshared (HC (UId j))).
  { intros i j A. rewrite !Sh. inversion A as [|? t ? ? Ht Hs A']; subst; [reflexivity |].
    destruct (anc_end T O _ _ _ A Ht) as [v Hv]. destruct (anc_kinds T K _ _ _ _ A Ht Hv) as [E _]. unfold is_type in Ht, Hv. rewrite Ht, Hv. exact E. }
  destruct x as [sa ta|i|i], y as [sb tb|j|j]; cbn [up m_heap nf] in *; rewrite ?Sa; repeat match goal with H : exists _, _ |- _ => destruct H as (? & ? & ? & ?) end; try contradiction.
  - tauto.
  - rewrite Sh. unfold is_type in *. match goal with H : nthz _ _ = _ |- _ => rewrite H end. congruence.
  - rewrite Sx. unfold is_type in *. match goal with H : nthz _ _ = _ |- _ => rewrite H end. congruence.
  - rewrite Sh. unfold is_type in *. match goal with H : nthz _ _ = _ |- _ => rewrite H end. congruence.
  - apply An; assumption.
  - rewrite Sx. unfold is_type in *. match goal with H : nthz _ _ = _ |- _ => rewrite H end. congruence.
  - rewrite Sx, <- Sh. apply An; assumption.
  - congruence.
Qed.
Variable m : modul.
Hypothesis Hm : zlen (md_types m) <= 1000000.
Lemma val_eqb_spec (a b : val) : val_eqb a b = true <-> a = b.
Proof. unfold val_eqb. destruct (vty_dec _ a b); split; congruence. Qed.
Lemma facts_ok : res_ok (module_resources s m).
Proof.
  refine (mkResOk _ _ _ hsub _ _ _ hsub_trans hsub_abs hshared _ _ hsub_shared _).
  - intros [sh t|u|u] a b; cbn; try reflexivity; destruct u; try exact I; destruct (nthz _ _); try exact I; reflexivity.
  - assert (P : forall u, match u with UModule i => exists id, nthz (md_types m) i = Some id | _ => False end -> packs u = true).
    { intros [i|i|i]; try contradiction. intros [id H]. apply nthz_some in H. unfold packs, idx_of, can_represent_index. apply Z.eqb_eq. change P_INDEX_MASK with (Z.ones 20). rewrite Z.land_ones, Z.mod_small by lia. reflexivity. }
    intros [sh t|u|u] a h'; cbn; [auto | |]; intros H; apply P; destruct u; try discriminate; destruct (nthz _ _); try discriminate; eauto.
  - intros a b. cbn. unfold hsub, v_is_subtype. destruct (vty_dec uidx_dec _ _) as [E|N].
    + injection E as E. subst b. assert (X : hsub (rt_heap a) (rt_heap a) = true) by (apply hsub_spec; auto). unfold hsub in X. rewrite X. destruct (rt_null a); reflexivity.
    + unfold rf_is_subtype. destruct (rty_dec uidx_dec a b) as [E|N1]; [congruence |].
      destruct (rt_null a) eqn:Na, (rt_null b) eqn:Nb; cbn [andb negb implb rt_null rt_heap answer]; try reflexivity.
      all: (destruct (heap_dec uidx_dec (rt_heap a) (rt_heap b)) as [E|N2]; [destruct (rty_dec uidx_dec _ _) as [E1|N3]; reflexivity |];
        destruct (rty_dec uidx_dec _ _) as [E1|N3]; [exfalso; apply N2; congruence | reflexivity]).
  - intros a b H. cbn. unfold v_is_subtype. destruct (vty_dec uidx_dec a b) as [E|N].
    + symmetry. apply val_eqb_spec in E. exact E.
    + assert (X : val_eqb a b = false) by (destruct (val_eqb a b) eqn:E; [apply val_eqb_spec in E; contradiction | reflexivity]).
      rewrite X. destruct a, b; try reflexivity. discriminate.
  - intros h. apply hsub_spec. auto.
  - intros r. reflexivity.
  - reflexivity.
  - intros h. cbn. destruct h as [sh t|u|u]; cbn; [destruct t; reflexivity | |];
      (destruct (do t <- type_of s u in Done (HA (c_shared (s_comp t)) match c_inner (s_comp t) with IFunc _ _ => Func | IArray _ | IStruct _ => Any | ICont _ => Cont end)) as [h| | |] eqn:E;
        cbn; rewrite ?E; cbn; try reflexivity; destruct (type_of s u); try discriminate; cbn in E; injection E as <-; cbn; destruct (c_inner _); reflexivity).
Qed.
End Facts.
Lemma module_res_ok h w m : reached h w -> zlen (md_types m) <= 1000000 -> res_ok (module_resources (w_store w) m).
Proof.
  intros R L. apply facts_ok; [| | | assumption]; destruct (reached_inv h w R) as (gs & D & V & _).
  - exact (i_super _ _ _ V).
  - exact (built_ordered _ _ _ _ _ (i_built _ _ _ V)).
  - exact (valid_kinds _ (i_valid _ _ _ V)).
Qed.
(** In a module, subtyping is that of the specification of types. *)
Lemma module_subtype h w m a b : reached h w -> let T := st_types (w_store w) in
  (r_is_subtype (module_resources (w_store w) m) (m_val UId a) (m_val UId b) = true <-> val_sub T a b).
Proof.
  intros R T. destruct (reached_inv h w R) as (gs & D & V & _).
  pose proof (built_ordered _ _ _ _ _ (i_built _ _ _ V)) as O. pose proof (valid_kinds _ (i_valid _ _ _ V)) as K. fold T in O, K.
  cbn [module_resources r_is_subtype]. unfold v_is_subtype. destruct (vty_dec uidx_dec (m_val UId a) (m_val UId b)) as [E|N].
  - assert (a = b).
    { destruct a as [| | | | |[na ha]], b as [| | | | |[nb hb]]; cbn in E; try discriminate; try reflexivity. injection E as -> E. apply (up_inj ha hb) in E. congruence. }
    subst. split; [intros _; apply val_sub_refl | reflexivity].
  - destruct a as [| | | | |[na ha]], b as [| | | | |[nb hb]]; cbn [m_val answer val_sub]; try (split; [discriminate | intros X; first [contradiction | discriminate | exfalso; apply N; reflexivity]]).
    cbn [rt_null rt_heap]. unfold ref_sub. cbn [rt_null rt_heap]. rewrite (nf_spec T O K). unfold T in *. rewrite <- (hsub_up (w_store w) (i_super _ _ _ V) O ha hb).
    unfold hsub, rf_is_subtype. fold (up ha) (up hb). destruct (rty_dec uidx_dec (mkR na (up ha)) (mkR nb (up hb))) as [E|N1].
    { exfalso. apply N. cbn. injection E as -> E. unfold up in E. rewrite E. reflexivity. }
    cbn [rt_null rt_heap]. destruct na, nb; cbn [andb negb answer].
    2: { split; [discriminate |]. intros [X _]. specialize (X eq_refl). discriminate. }
    all: destruct (heap_dec uidx_dec (up ha) (up hb)) as [E|N2]; [destruct (rty_dec uidx_dec (mkR false _) (mkR false _)) as [E1|N3]; cbn; tauto |].
    all: (destruct (rty_dec uidx_dec (mkR false _) (mkR false _)) as [E1|N3]; [exfalso; apply N2; congruence |]); tauto.
Qed.
(** The top of the hierarchy of a heap type is above it, and nothing else is above the top. *)
Lemma module_top h w m x : reached h w -> let T := st_types (w_store w) in
  match x with HA _ _ => True | HC i | HX i => exists t, is_type T i t end ->
  exists sh t, r_top_type (module_resources (w_store w) m) (m_heap UId x) = HA sh t /\ heap_sub T x (HA sh t) /\
    forall y, heap_sub T (HA sh t) y -> y = HA sh t.
Proof.
  intros R T Hx. destruct (reached_inv h w R) as (gs & D & V & _).
  pose proof (built_ordered _ _ _ _ _ (i_built _ _ _ V)) as O. pose proof (valid_kinds _ (i_valid _ _ _ V)) as K. fold T in O, K.
  assert (M : forall sh t y, In t [Func; Extern; Any; Exn; Cont] -> heap_sub T (HA sh t) y -> y = HA sh t).
  { intros sh t y I H. rewrite (nf_spec T O K) in H. destruct y as [sb tb|j|j]; cbn [nf] in H.
    - destruct H as [-> H]. cbn in I. repeat destruct I as [<-|I]; try contradiction; destruct tb; try discriminate H; reflexivity.
    - destruct H as (u & _ & _ & ->). unfold bottom_of in I. destruct (c_inner (s_comp u)); cbn in I; repeat destruct I as [I|I]; try discriminate I; contradiction.
    - destruct H as (u & _ & _ & ->). unfold bottom_of in I. destruct (c_inner (s_comp u)); cbn in I; repeat destruct I as [I|I]; try discriminate I; contradiction. }
  cbn [module_resources r_top_type]. destruct x as [sa ta|i|i]; cbn [m_heap hp_top answer].
  - eexists sa, _. split; [reflexivity |]. split; [rewrite (nf_spec T O K); cbn [nf]; split; [reflexivity | destruct ta; reflexivity] |].
    intros y. apply M. destruct ta; cbn; auto 10.
  - destruct Hx as [t Ht]. unfold type_of, core_id. cbn [obind]. unfold type_at. fold T. unfold is_type in Ht. rewrite Ht. cbn.
    eexists _, _. split; [reflexivity |]. split; [rewrite (nf_spec T O K); cbn [nf]; exists t; split; [exact Ht |]; split; [reflexivity |]; unfold kind_of; destruct (c_inner (s_comp t)); reflexivity |].
    intros y. apply M. destruct (c_inner (s_comp t)); cbn; auto 10.
  - destruct Hx as [t Ht]. unfold type_of, core_id. cbn [obind]. unfold type_at. fold T. unfold is_type in Ht. rewrite Ht. cbn.
    eexists _, _. split; [reflexivity |]. split; [rewrite (nf_spec T O K); cbn [nf]; exists t; split; [exact Ht |]; split; [reflexivity |]; unfold kind_of; destruct (c_inner (s_comp t)); reflexivity |].
    intros y. apply M. destruct (c_inner (s_comp t)); cbn; auto 10.
Qed.
