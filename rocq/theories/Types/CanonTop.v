(** Histories of recursion groups: what the list of types looks like, which groups are accepted, and
    which types get the same id. *)
From Verif.Base Require Import Prelude.
From Verif.Types Require Import CanonModel CanonSpec CanonLemmas CanonSub CanonChecks.

(** * More types keep what held *)
Lemma Forall2_map_mono {A B} (P Q : A -> B -> Prop) l m : (forall a b, P a b -> Q a b) -> Forall2 P l m -> Forall2 Q l m.
Proof. intros H F. induction F; constructor; auto. Qed.
Section Mono.
Variables T X : list (subty Z).
Lemma is_type_mono i t : is_type T i t -> is_type (T ++ X) i t.
Proof. apply nthz_app_some. Qed.
Lemma heap_sub_mono a b : heap_sub T a b -> heap_sub (T ++ X) a b.
Proof.
  intros H; induction H; [apply hs_refl | eapply hs_trans; eauto | apply hs_abs; assumption | eapply hs_declared; eauto; apply is_type_mono; assumption
    | apply hs_exact | apply hs_kind, is_type_mono; assumption | apply hs_bottom, is_type_mono; assumption].
Qed.
Lemma val_sub_mono a b : val_sub T a b -> val_sub (T ++ X) a b.
Proof. destruct a, b; cbn; auto. intros [N H]. split; [assumption | apply heap_sub_mono; assumption]. Qed.
Lemma sto_sub_mono a b : sto_sub T a b -> sto_sub (T ++ X) a b.
Proof. destruct a, b; cbn; auto. apply val_sub_mono. Qed.
Lemma fld_sub_mono a b : fld_sub T a b -> fld_sub (T ++ X) a b.
Proof. intros (A & B & C). split; [assumption |]. split; [apply sto_sub_mono; assumption | intros E; apply sto_sub_mono; auto]. Qed.
Lemma comp_sub_mono a b : comp_sub T a b -> comp_sub (T ++ X) a b.
Proof.
  intros [A B]. split; [assumption |]. destruct (c_inner a), (c_inner b); auto.
  - destruct B. split; (eapply Forall2_map_mono; [| eassumption]); apply val_sub_mono.
  - apply fld_sub_mono; assumption.
  - destruct B as (same & rest & E & F). exists same, rest. split; [assumption |]. eapply Forall2_map_mono; [| eassumption]. apply fld_sub_mono.
  - apply heap_sub_mono; assumption.
Qed.
Lemma shared_val_mono v : shared_val T v -> shared_val (T ++ X) v.
Proof. destruct v as [| | | | | [n [b t|i|i]]]; cbn; auto; intros (u & Hu & E); exists u; split; auto; apply is_type_mono; assumption. Qed.
Lemma depth_mono i d : depth T i d -> depth (T ++ X) i d.
Proof. intros H; induction H; [eapply depth_root; eauto; apply is_type_mono; assumption | eapply depth_sub; eauto; apply is_type_mono; assumption]. Qed.
Lemma declares_mono i j : declares T i j -> declares (T ++ X) i j.
Proof. intros (t & H & E). exists t. split; [apply is_type_mono; assumption | assumption]. Qed.
Lemma valid_mono i t : ordered T -> is_type T i t -> valid_type T i t -> valid_type (T ++ X) i t.
Proof.
  intros O Ht [A B C D E F G H]. constructor.
  - intros S. eapply Forall_impl; [| apply A; assumption]. apply shared_val_mono.
  - intros j Ej. destruct (B j Ej) as (u & ps & rs & Hu & Eu). exists u, ps, rs. split; [apply is_type_mono; assumption | assumption].
  - intros j Ej. destruct (C j Ej) as (u & Hu & Ef & Hs). exists u. split; [apply is_type_mono; assumption |]. split; [assumption | apply comp_sub_mono; assumption].
  - destruct D as (d & Hd & L). exists d. split; [apply depth_mono; assumption | assumption].
  - assumption.
  - intros d Ed. destruct (F d Ed) as (u & Hu & Eu). exists u. split; [apply is_type_mono; assumption | assumption].
  - intros d Ed. destruct (G d Ed) as (u & Hu & Eu). exists u. split; [apply is_type_mono; assumption | assumption].
  - intros j u Ej Hu. assert (Hu' : is_type T j u).
    { unfold is_type in *. rewrite nthz_app_l in Hu; [assumption |]. pose proof (refs_super T O _ _ _ Ht Ej) as Dj. unfold defined in Dj. lia. }
    specialize (H j u Ej Hu'). destruct H as [H1 H2]. split.
    + destruct (c_descriptor (s_comp t)), (c_descriptor (s_comp u)); auto. apply declares_mono; assumption.
    + destruct (c_describes (s_comp t)), (c_describes (s_comp u)); auto. apply declares_mono; assumption.
Qed.
End Mono.
Lemma comp_sub_kind T a b : comp_sub T a b -> c_shared a = c_shared b /\ kind_of a = kind_of b.
Proof. unfold comp_sub, kind_of. intros [A B]. split; [assumption |]. destruct (c_inner a), (c_inner b); try contradiction; reflexivity. Qed.
Lemma valid_kinds T : (forall i t, is_type T i t -> valid_type T i t) -> kinds T.
Proof.
  intros V i t j u Ht Es Hu. destruct (v_super T i t (V i t Ht) j Es) as (u' & Hu' & _ & S).
  assert (u' = u) by (unfold is_type in *; congruence). subst. eapply comp_sub_kind; eauto.
Qed.

(** * The shape of the list of types *)
Definition rl (D : list meaning) (l : loc) : meaning :=
  match l with LRec k => Inside k | LId i => match nthz D i with Some m => m | None => Inside 0 end end.
Definition close (D : list meaning) (g : list (subty loc)) : list (subty meaning) := map (m_sub (rl D)) g.
Definition loc_ok (start len : Z) (l : loc) : Prop := match l with LRec i => 0 <= i < len | LId i => 0 <= i < start end.
Definition scoped (start : Z) (g : list (subty loc)) : Prop := forall k t, nthz g k = Some t ->
  Forall (loc_ok start (zlen g)) (refs_sub t) /\ match s_super t with Some (LRec i) => i < k | _ => True end.
Inductive built : list (list (subty loc)) -> list (subty Z) -> list (Z * Z) -> list (list (subty loc) * Z) -> list meaning -> Prop :=
| built_nil : built [] [] [] [] []
| built_snoc gs T R C D g : built gs T R C D -> scoped (zlen T) g -> ~ In g gs ->
    built (gs ++ [g]) (T ++ map (m_sub (super_id (zlen T))) g) (R ++ [(zlen T, zlen T + zlen g)]) (C ++ [(g, zlen R)])
          (D ++ map (Outside (close D g)) (count 0 g)).

Lemma built_len gs T R C D : built gs T R C D -> zlen D = zlen T /\ zlen R = zlen gs /\ zlen C = zlen gs /\ (zlen gs <= zlen T + (if in_dec group_dec [] gs then 1 else 0)).
Proof.
  intros H; induction H as [| gs T R C D g H (IH1 & IH2 & IH3 & IH4) Sc N].
  { split; [reflexivity |]. split; [reflexivity |]. split; [reflexivity |]. rewrite zlen_nil. unfold zlen. cbn [List.length]. destruct (in_dec group_dec [] []); lia. }
  rewrite !zlen_app, !zlen_map', count_len. change (zlen [(zlen T, zlen T + zlen g)]) with 1. change (zlen [(g, zlen R)]) with 1. change (zlen [g]) with 1.
  split; [lia |]. split; [lia |]. split; [lia |].
  destruct (in_dec group_dec [] (gs ++ [g])) as [I'|I']; destruct (in_dec group_dec [] gs) as [I|I].
  - destruct g; [contradiction |]. rewrite zlen_cons. pose proof (zlen_nonneg g). lia.
  - pose proof (zlen_nonneg g). lia.
  - exfalso. apply I'. apply in_or_app. auto.
  - destruct g; [exfalso; apply I'; apply in_or_app; right; left; reflexivity |]. rewrite zlen_cons. pose proof (zlen_nonneg g). lia.
Qed.
Lemma place_refs start len n t : 0 <= start -> 0 <= len -> Forall (loc_ok start len) (refs_sub t) -> start + len <= n -> Forall (fun i => 0 <= i < n) (refs_sub (m_sub (super_id start) t)).
Proof.
  intros S S2 F L. rewrite refs_sub_map. rewrite Forall_forall in *. intros i Hi. apply in_map_iff in Hi. destruct Hi as (l & <- & Hl).
  specialize (F l Hl). destruct l; cbn in *; lia.
Qed.
Lemma ordered_snoc T g : ordered T -> scoped (zlen T) g -> ordered (T ++ map (m_sub (super_id (zlen T))) g).
Proof.
  intros O Sc. pose proof (zlen_nonneg T) as L0.
  assert (X : forall i t, is_type (T ++ map (m_sub (super_id (zlen T))) g) i t ->
    is_type T i t \/ exists t', nthz g (i - zlen T) = Some t' /\ t = m_sub (super_id (zlen T)) t').
  { intros i t H. unfold is_type in *. destruct (Z_lt_ge_dec i (zlen T)) as [L|L].
    - rewrite nthz_app_l in H by lia. auto.
    - rewrite nthz_app_r in H by lia. rewrite nthz_map in H. destruct (nthz g (i - zlen T)); [| discriminate]. cbn in H. right. inversion H; eauto. }
  constructor.
  - intros i t j H E. destruct (X i t H) as [H'|(t' & H' & ->)]; [eapply o_sup; eauto |].
    destruct (Sc _ _ H') as [F B]. cbn in E. destruct (s_super t') as [l|] eqn:El; [| discriminate]. cbn in E. inversion E; subst j.
    unfold refs_sub in F. rewrite El in F. cbn in F. inversion F as [|? ? F1 F2]; subst. pose proof (nthz_some _ _ _ H'). destruct l; cbn in *; lia.
  - intros i t H. destruct (X i t H) as [H'|(t' & H' & ->)].
    + eapply Forall_impl; [| eapply o_refs; eauto]. unfold defined. intros a Ha. rewrite zlen_app. pose proof (zlen_nonneg (map (m_sub (super_id (zlen T))) g)). lia.
    + destruct (Sc _ _ H') as [F B]. eapply place_refs; [lia | apply (zlen_nonneg g) | exact F |]. rewrite zlen_app, zlen_map'. lia.
Qed.
Lemma built_ordered gs T R C D : built gs T R C D -> ordered T.
Proof.
  intros H; induction H as [| gs T R C D g H IH Sc N]; [| apply ordered_snoc; assumption].
  constructor; intros i t; intros; apply nthz_some in H; unfold zlen in H; cbn [List.length] in H; lia.
Qed.

Lemma rl_app D X start len l : loc_ok start len l -> start <= zlen D -> rl (D ++ X) l = rl D l.
Proof. destruct l; cbn; intros H L; [reflexivity |]. rewrite nthz_app_l by lia. reflexivity. Qed.
Lemma close_app D X start g : scoped start g -> start <= zlen D -> close (D ++ X) g = close D g.
Proof.
  intros Sc L. apply map_ext_in. intros t Ht. apply m_sub_ext. intros l Hl. apply In_nthz in Ht. destruct Ht as [k Hk].
  destruct (Sc k t Hk) as [F _]. rewrite Forall_forall in F. eapply rl_app; eauto.
Qed.
Lemma nthz_outs {A} (g : list A) X i : 0 <= i < zlen g -> nthz (map (Outside X) (count 0 g)) i = Some (Outside X i).
Proof. intros H. rewrite nthz_map, nthz_count by assumption. reflexivity. Qed.

(** Every type of [D] belongs to a group. *)
Lemma built_entry gs T R C D : built gs T R C D -> forall i m, nthz D i = Some m ->
  exists g k start, In g gs /\ scoped start g /\ start <= zlen D /\ 0 <= k < zlen g /\ m = Outside (close D g) k.
Proof.
  intros H; induction H as [| gs T R C D g H IH Sc N]; intros i m Hm.
  - apply nthz_some in Hm. unfold zlen in Hm; cbn [List.length] in Hm; lia.
  - destruct (built_len _ _ _ _ _ H) as (LD & _). pose proof (zlen_nonneg g).
    destruct (Z_lt_ge_dec i (zlen D)) as [L|L].
    + rewrite nthz_app_l in Hm by lia. destruct (IH i m Hm) as (g' & k & start & I & Sc' & Ls & Lk & ->). exists g', k, start.
      split; [apply in_or_app; auto |]. split; [assumption |]. rewrite zlen_app, zlen_map', count_len. split; [lia |]. split; [assumption |].
      erewrite close_app by eauto. reflexivity.
    + rewrite nthz_app_r in Hm by lia. assert (B : 0 <= i - zlen D < zlen g) by (apply nthz_some in Hm; rewrite zlen_map', count_len in Hm; lia).
      rewrite (nthz_outs g _ _ B) in Hm. inversion Hm; subst. exists g, (i - zlen D), (zlen T).
      split; [apply in_or_app; right; left; reflexivity |]. split; [assumption |]. rewrite zlen_app, zlen_map', count_len. split; [lia |]. split; [assumption |].
      erewrite close_app; [reflexivity | eassumption | lia].
Qed.
Lemma close_inj D g g' start start' :
  (forall i j m, nthz D i = Some m -> nthz D j = Some m -> i = j) ->
  (forall i m, nthz D i = Some m -> exists G k, m = Outside G k) ->
  scoped start g -> start <= zlen D -> scoped start' g' -> start' <= zlen D -> close D g = close D g' -> g = g'.
Proof.
  intros Inj Out Sc L Sc' L' E. eapply map_inj_in; [exact E |]. intros t t' Ht Ht' Em. eapply m_sub_inj; [exact Em |]. intros l l' Hl Hl' El.
  apply In_nthz in Ht, Ht'. destruct Ht as [k Hk], Ht' as [k' Hk'].
  destruct (Sc _ _ Hk) as [F _], (Sc' _ _ Hk') as [F' _]. rewrite Forall_forall in F, F'. specialize (F l Hl). specialize (F' l' Hl').
  destruct l as [i|i], l' as [j|j]; cbn in *.
  - congruence.
  - destruct (nthz_ex D j) as [m Hm]; [lia |]. rewrite Hm in El. destruct (Out _ _ Hm) as (G & q & ->). discriminate.
  - destruct (nthz_ex D i) as [m Hm]; [lia |]. rewrite Hm in El. destruct (Out _ _ Hm) as (G & q & ->). discriminate.
  - destruct (nthz_ex D i) as [m Hm]; [lia |]. destruct (nthz_ex D j) as [m' Hm']; [lia |]. rewrite Hm, Hm' in El. subst m'. f_equal. eapply Inj; eauto.
Qed.
Lemma built_inj gs T R C D : built gs T R C D -> forall i j m, nthz D i = Some m -> nthz D j = Some m -> i = j.
Proof.
  intros H; induction H as [| gs T R C D g H IH Sc N]; intros i j m Hi Hj.
  - apply nthz_some in Hi. unfold zlen in Hi; cbn [List.length] in Hi; lia.
  - destruct (built_len _ _ _ _ _ H) as (LD & _).
    assert (Out : forall i m, nthz D i = Some m -> exists G k, m = Outside G k) by (intros a b Hab; destruct (built_entry _ _ _ _ _ H _ _ Hab) as (? & ? & ? & _ & _ & _ & _ & ->); eauto).
    assert (New : forall i m, zlen D <= i -> nthz (D ++ map (Outside (close D g)) (count 0 g)) i = Some m -> m = Outside (close D g) (i - zlen D)).
    { intros a b La Hab. rewrite nthz_app_r in Hab by lia. assert (B : 0 <= a - zlen D < zlen g) by (apply nthz_some in Hab; rewrite zlen_map', count_len in Hab; lia).
      rewrite (nthz_outs g _ _ B) in Hab. congruence. }
    assert (Old : forall i k m, i < zlen D -> nthz (D ++ map (Outside (close D g)) (count 0 g)) i = Some m -> m = Outside (close D g) k -> False).
    { intros a k b La Hab ->. rewrite nthz_app_l in Hab by lia. destruct (built_entry _ _ _ _ _ H _ _ Hab) as (g' & k' & start & I & Sc' & Ls & Lk & E).
      inversion E as [[E1 E2]]. apply N. rewrite (close_inj D g g' (zlen T) start IH Out Sc) ; try assumption; lia. }
    destruct (Z_lt_ge_dec i (zlen D)) as [Li|Li], (Z_lt_ge_dec j (zlen D)) as [Lj|Lj].
    + rewrite nthz_app_l in Hi, Hj by lia. eapply IH; eauto.
    + exfalso. eapply Old; [exact Li | exact Hi | eapply New; [| exact Hj]; lia].
    + exfalso. eapply Old; [exact Lj | exact Hj | eapply New; [| exact Hi]; lia].
    + apply New in Hi; [| lia]. apply New in Hj; [| lia]. subst m. inversion Hj. lia.
Qed.
(** Looking a group up. *)
Lemma find_app g C C' : find_group g (C ++ C') = match find_group g C with Some i => Some i | None => find_group g C' end.
Proof. induction C as [|[k v] C IH]; cbn; [reflexivity |]. destruct (group_dec g k); [reflexivity | apply IH]. Qed.
Lemma find_none gs T R C D g : built gs T R C D -> (find_group g C = None <-> ~ In g gs).
Proof.
  intros H; induction H as [| gs T R C D g' H IH Sc N]; [cbn; tauto |]. rewrite find_app, in_app_iff. cbn.
  destruct (find_group g C).
  - split; [discriminate |]. intros X. exfalso. assert (Y : ~ In g gs) by tauto. apply IH in Y. discriminate.
  - destruct (group_dec g g') as [->|Ne]; [split; [discriminate | intros X; exfalso; apply X; auto] |].
    split; [| reflexivity]. intros _ [X|[X|[]]]; [apply IH in X; [assumption | reflexivity] | congruence].
Qed.
Lemma built_find gs T R C D g gid : built gs T R C D -> find_group g C = Some gid ->
  exists st, nthz R gid = Some (st, st + zlen g) /\ 0 <= st /\ st + zlen g <= zlen T /\ scoped st g /\
    (forall k t, nthz g k = Some t -> nthz T (st + k) = Some (m_sub (super_id st) t)) /\
    (forall k, 0 <= k < zlen g -> nthz D (st + k) = Some (Outside (close D g) k)).
Proof.
  intros H; revert g gid; induction H as [| gs T R C D g' H IH Sc N]; intros g gid F; [discriminate |].
  rewrite find_app in F. destruct (built_len _ _ _ _ _ H) as (LD & LR & _). pose proof (zlen_nonneg T) as L0.
  destruct (find_group g C) as [id|] eqn:E.
  - inversion F; subst id. destruct (IH g gid E) as (st & Hr & S0 & S1 & Sg & HT & HD). exists st.
    split; [apply nthz_app_some; assumption |]. split; [assumption |]. split; [rewrite zlen_app; pose proof (zlen_nonneg (map (m_sub (super_id (zlen T))) g')); lia |].
    split; [assumption |]. split; [intros; apply nthz_app_some; auto |].
    intros k Hk. erewrite close_app; [| eassumption |]; [apply nthz_app_some; auto |]. pose proof (zlen_nonneg g). lia.
  - cbn in F. destruct (group_dec g g') as [->|]; [| discriminate]. inversion F; subst gid. exists (zlen T).
    split; [rewrite nthz_app_r by lia; rewrite Z.sub_diag; reflexivity |]. split; [assumption |]. split; [rewrite zlen_app, zlen_map'; lia |]. split; [assumption |].
    split.
    + intros k t Hk. pose proof (nthz_some _ _ _ Hk). rewrite nthz_app_r by lia. rewrite nthz_map. replace (zlen T + k - zlen T) with k by lia. rewrite Hk. reflexivity.
    + intros k Hk. rewrite nthz_app_r by lia. replace (zlen T + k - zlen D) with k by lia. rewrite (nthz_outs g' _ _ Hk).
      erewrite close_app; [reflexivity | eassumption | lia].
Qed.

(** * Canonicalisation *)
Definition cidx (ids : list Z) (len i : Z) : loc := val_of (LId 0) (canon_index ids len) i.
Lemma canon_index_done ids len i l : canon_index ids len i = Done l ->
  (exists id, nthz ids i = Some id /\ l = LId id /\ id < MAX_INDEX) \/ (zlen ids <= i /\ i - zlen ids < len /\ l = LRec (i - zlen ids) /\ i - zlen ids < MAX_INDEX).
Proof.
  unfold canon_index. destruct (Z.ltb_spec i (zlen ids)).
  - destruct (nthz ids i) as [id|]; [| discriminate]. destruct (Z.ltb_spec id MAX_INDEX); [| discriminate]. intros E; inversion E; subst. left. eauto.
  - destruct (Z.ltb_spec (i - zlen ids) len); [| discriminate]. destruct (Z.ltb_spec (i - zlen ids) MAX_INDEX); [| discriminate].
    intros E; inversion E; subst. right. auto.
Qed.
Lemma canon_index_settled ids len i : settled (canon_index ids len i).
Proof.
  unfold canon_index. destruct (i <? zlen ids); [destruct (nthz ids i) as [z|]; [destruct (z <? MAX_INDEX) |]; exact I |].
  destruct (i - zlen ids <? len); [destruct (i - zlen ids <? MAX_INDEX) |]; exact I.
Qed.
Lemma canon_index_ok ids len i : Forall (fun id => id < MAX_INDEX) ids -> len <= MAX_INDEX -> 0 <= i < zlen ids + len -> exists l, canon_index ids len i = Done l.
Proof.
  intros F L B. unfold canon_index. destruct (Z.ltb_spec i (zlen ids)).
  - destruct (nthz_ex ids i) as [id Hid]; [lia |]. rewrite Hid. rewrite Forall_forall in F. specialize (F id (nthz_In _ _ _ Hid)). destruct (Z.ltb_spec id MAX_INDEX); [eauto | lia].
  - destruct (Z.ltb_spec (i - zlen ids) len); [| lia]. destruct (Z.ltb_spec (i - zlen ids) MAX_INDEX); [eauto | lia].
Qed.
Lemma canon_type_settled ids len k t : settled (canon_type ids len k t).
Proof.
  unfold canon_type. destruct (match s_super t with Some i => _ | None => _ end); [exact I |]. destruct (match c_describes (s_comp t) with Some i => _ | None => _ end); [exact I |].
  apply t_sub_settled. intros; apply canon_index_settled.
Qed.
Lemma canon_types_settled ids len k l : settled (canon_types ids len k l).
Proof.
  revert k; induction l as [|t l IH]; intros k; cbn; [exact I |]. apply settled_bind; [apply canon_type_settled |]. intros c _. apply settled_bind; [apply IH | intros; exact I].
Qed.
Lemma canon_type_done ids len k t c : canon_type ids len k t = Done c ->
  c = m_sub (cidx ids len) t /\ (forall i, In i (refs_sub t) -> canon_index ids len i = Done (cidx ids len i)) /\
  before (zlen ids + k) (s_super t) /\ before (zlen ids + k) (c_describes (s_comp t)).
Proof.
  unfold canon_type. destruct (match s_super t with Some i => _ | None => _ end) eqn:E1; [discriminate |].
  destruct (match c_describes (s_comp t) with Some i => _ | None => _ end) eqn:E2; [discriminate |]. intros H.
  split; [apply t_sub_done; assumption |]. split; [| split].
  - intros i Hi. destruct (t_sub_inv _ _ _ H i Hi) as [j Ej]. unfold cidx, val_of. rewrite Ej. reflexivity.
  - destruct (s_super t); cbn; [lia | exact I].
  - destruct (c_describes (s_comp t)); cbn; [lia | exact I].
Qed.
Lemma canon_types_done ids len l : forall k c, canon_types ids len k l = Done c ->
  c = map (m_sub (cidx ids len)) l /\ forall q t, nthz l q = Some t ->
    (forall i, In i (refs_sub t) -> canon_index ids len i = Done (cidx ids len i)) /\
    before (zlen ids + (k + q)) (s_super t) /\ before (zlen ids + (k + q)) (c_describes (s_comp t)).
Proof.
  induction l as [|t l IH]; intros k c H; cbn in H.
  - inversion H; subst. split; [reflexivity |]. intros q t Hq. apply nthz_some in Hq. unfold zlen in Hq; cbn [List.length] in Hq; lia.
  - apply obind_done in H. destruct H as (c1 & E1 & H). apply obind_done in H. destruct H as (c2 & E2 & H). inversion H; subst.
    apply canon_type_done in E1. destruct E1 as (-> & A & B & B'). apply IH in E2. destruct E2 as (-> & A2). split; [reflexivity |].
    intros q u Hq. destruct (Z.eq_dec q 0) as [->|N].
    + rewrite nthz_cons0 in Hq. inversion Hq; subst. rewrite Z.add_0_r. auto.
    + pose proof (nthz_some _ _ _ Hq). rewrite nthz_cons in Hq by lia. replace (k + q) with (k + 1 + (q - 1)) by lia. apply A2. assumption.
Qed.
Lemma canon_group_accepts ids g : Forall (fun id => id < MAX_INDEX) ids -> zlen g <= MAX_INDEX -> accepts (canon_group ids g) (group_in_scope (zlen ids) g).
Proof.
  intros F L. split; [apply canon_types_settled |]. unfold canon_group, group_in_scope. split.
  - intros [c H]. apply canon_types_done in H. destruct H as [_ H]. intros k t Hk. destruct (H k t Hk) as (A & B & B').
    rewrite Z.add_0_l in B, B'. split; [| auto]. rewrite Forall_forall. intros i Hi. specialize (A i Hi). apply canon_index_done in A. pose proof (zlen_nonneg g). pose proof (zlen_nonneg ids).
    destruct A as [(id & Hid & _)|A]; [apply nthz_some in Hid; lia | lia].
  - intros H. assert (X : forall l k, (forall q t, nthz l q = Some t -> in_scope (zlen ids) (zlen g) (k + q) t) -> exists c, canon_types ids (zlen g) k l = Done c).
    { induction l as [|t l IH]; intros k Hl; cbn; [eauto |].
      assert (Ht : in_scope (zlen ids) (zlen g) k t) by (rewrite <- (Z.add_0_r k); apply Hl; reflexivity). destruct Ht as (A & B & B').
      assert (E : canon_type ids (zlen g) k t = Done (m_sub (cidx ids (zlen g)) t)).
      { unfold canon_type.
        assert (Z1 : match s_super t with Some i => zlen ids + k <=? i | None => false end = false) by (destruct (s_super t); cbn in *; [lia | reflexivity]).
        assert (Z2 : match c_describes (s_comp t) with Some i => zlen ids + k <=? i | None => false end = false) by (destruct (c_describes (s_comp t)); cbn in *; [lia | reflexivity]).
        rewrite Z1, Z2. apply t_sub_map. intros i Hi. rewrite Forall_forall in A. specialize (A i Hi).
        destruct (canon_index_ok ids (zlen g) i F L A) as [l' E']. unfold cidx, val_of. rewrite E'. reflexivity. }
      rewrite E. cbn. destruct (IH (k + 1)) as [r ->]; [| cbn; eauto]. intros q u Hq. replace (k + 1 + q) with (k + (q + 1)) by lia. apply Hl.
      pose proof (nthz_some _ _ _ Hq). rewrite nthz_cons by lia. replace (q + 1 - 1) with q by lia. assumption. }
    apply X. intros q t Hq. apply H. assumption.
Qed.

(** * One store *)
Record inv (s : store) (gs : list (list (subty loc))) (D : list meaning) : Prop := mkInv {
  i_built : built gs (st_types s) (st_ranges s) (st_canon s) D;
  i_super : st_super s = map s_super (st_types s);
  i_valid : forall i t, is_type (st_types s) i t -> valid_type (st_types s) i t;
  i_depths : depths (st_types s) s (zlen (st_types s))
}.
Lemma canon_scoped ids g c n : canon_group ids g = Done c -> Forall (fun id => 0 <= id < n) ids -> scoped n c.
Proof.
  intros H F. apply canon_types_done in H. destruct H as [-> H]. intros k t' Hk. rewrite nthz_map in Hk. destruct (nthz g k) as [t|] eqn:Ek; [| discriminate]. cbn in Hk. inversion Hk; subst t'.
  destruct (H k t Ek) as (A & B & _). rewrite Z.add_0_l in B. split.
  - rewrite refs_sub_map, Forall_forall. intros l Hl. apply in_map_iff in Hl. destruct Hl as (i & <- & Hi). specialize (A i Hi). apply canon_index_done in A. rewrite zlen_map'.
    destruct A as [(id & Hid & E & _)|(A1 & A2 & E & _)]; rewrite E; cbn; [| lia]. rewrite Forall_forall in F. apply F. eapply nthz_In; eauto.
  - cbn. destruct (s_super t) as [i|] eqn:Es; cbn; [| exact I]. assert (Hi : In i (refs_sub t)) by (unfold refs_sub; rewrite Es; left; reflexivity).
    specialize (A i Hi). apply canon_index_done in A. cbn in B. destruct A as [(id & Hid & E & _)|(A1 & A2 & E & _)]; rewrite E; [exact I | lia].
Qed.
Lemma canon_placed ids g c base : canon_group ids g = Done c -> map (m_sub (super_id base)) c = placed ids base g.
Proof.
  intros H. apply canon_types_done in H. destruct H as [-> H]. unfold placed. rewrite map_map. apply map_ext_in. intros t Ht. rewrite m_sub_comp. apply m_sub_ext.
  intros i Hi. apply In_nthz in Ht. destruct Ht as [k Hk]. destruct (H k t Hk) as (A & _). specialize (A i Hi). apply canon_index_done in A. unfold place.
  destruct A as [(id & Hid & E & _)|(A1 & A2 & E & _)]; rewrite E; cbn.
  - rewrite Hid. reflexivity.
  - destruct (nthz ids i) eqn:En; [apply nthz_some in En; lia |]. reflexivity.
Qed.
Lemma canon_meaning ids g c D env : canon_group ids g = Done c -> Forall2 (fun id m => nthz D id = Some m) ids env -> close D c = group_meaning env g.
Proof.
  intros H F. apply canon_types_done in H. destruct H as [-> H]. unfold close, group_meaning. rewrite map_map. apply map_ext_in. intros t Ht. rewrite m_sub_comp. apply m_sub_ext.
  intros i Hi. apply In_nthz in Ht. destruct Ht as [k Hk]. destruct (H k t Hk) as (A & _). specialize (A i Hi). apply canon_index_done in A. unfold roll.
  apply Forall2_nthz in F. destruct F as [FL F]. assert (EL : zlen ids = zlen env) by (unfold zlen; lia).
  destruct A as [(id & Hid & E & _)|(A1 & A2 & E & _)]; rewrite E; cbn.
  - destruct (nthz_ex env i) as [m Hm]; [apply nthz_some in Hid; lia |]. rewrite Hm, (F i id m Hid Hm). reflexivity.
  - destruct (nthz env i) eqn:En; [apply nthz_some in En; lia |]. rewrite EL. reflexivity.
Qed.
Lemma to_id_super start l j : to_id start l = Done j -> j = super_id start l.
Proof. destruct l; cbn; [destruct (start + i <? MAX_INDEX) |]; congruence. Qed.
Lemma t_list_done {A B} (f : A -> outcome B) (m : A -> B) l r : (forall a b, f a = Done b -> b = m a) -> t_list f l = Done r -> r = map m l.
Proof.
  intros F. revert r; induction l as [|a l IH]; intros r H; cbn in *; [congruence |]. apply obind_done in H. destruct H as (b & E & H). apply obind_done in H. destruct H as (r' & E' & H).
  inversion H; subst. rewrite (F _ _ E), (IH _ E'). reflexivity.
Qed.
Lemma to_id_sub start t r : t_sub (to_id start) t = Done r -> r = m_sub (super_id start) t.
Proof.
  intros H. rewrite (t_sub_done 0 _ _ _ H). apply m_sub_ext. intros i Hi. destruct (t_sub_inv _ _ _ H i Hi) as [j E]. unfold val_of. rewrite E. apply to_id_super. assumption.
Qed.
Definition pushed (s : store) (g : list (subty loc)) : store :=
  let start := zlen (st_types s) in
  mkStore (st_types s ++ map (m_sub (super_id start)) g) (st_group_of s ++ map (fun _ => zlen (st_ranges s)) g)
    (map s_super (st_types s ++ map (m_sub (super_id start)) g)) (st_depth s)
    (st_ranges s ++ [(start, start + zlen g)]) (st_canon s ++ [(g, zlen (st_ranges s))]).
Lemma intern_done s gs D g r : inv s gs D -> intern s g = Done r ->
  (exists gid, find_group g (st_canon s) = Some gid /\ r = (s, false, gid)) \/
  (find_group g (st_canon s) = None /\ r = (pushed s g, true, zlen (st_ranges s))).
Proof.
  intros V. unfold intern. destruct (zlen (st_ranges s) <? 2 ^ 32); [| discriminate].
  destruct (find_group g (st_canon s)) as [gid|]; [intros E; inversion E; left; eauto |]. destruct (zlen (st_types s) <? 2 ^ 32); [| discriminate].
  intros H. apply obind_done in H. destruct H as (ts & E & H). apply (t_list_done _ _ _ _ (to_id_sub _)) in E. subst ts.
  destruct (zlen (st_types s ++ map (m_sub (super_id (zlen (st_types s)))) g) <? 2 ^ 32); [| discriminate].
  inversion H; subst. right. split; [reflexivity |]. unfold pushed. rewrite (i_super _ _ _ V).
  rewrite zlen_app, zlen_map'. repeat f_equal. rewrite map_app, map_map. reflexivity.
Qed.
Lemma intern_ok s gs D g : inv s gs D -> zlen (st_types s) + zlen g <= MAX_INDEX -> scoped (zlen (st_types s)) g ->
  intern s g = match find_group g (st_canon s) with Some gid => Done (s, false, gid) | None => Done (pushed s g, true, zlen (st_ranges s)) end.
Proof.
  intros V L Sc. pose proof (zlen_nonneg g) as Lg. pose proof (zlen_nonneg (st_types s)) as L0.
  assert (LR : zlen (st_ranges s) <= MAX_INDEX + 1).
  { destruct (built_len _ _ _ _ _ (i_built _ _ _ V)) as (_ & E & _ & B). destruct (in_dec group_dec [] gs); lia. }
  unfold MAX_INDEX in *. unfold intern. destruct (Z.ltb_spec (zlen (st_ranges s)) (2 ^ 32)); [| lia].
  destruct (find_group g (st_canon s)); [reflexivity |]. destruct (Z.ltb_spec (zlen (st_types s)) (2 ^ 32)); [| lia].
  rewrite (t_list_map _ (m_sub (super_id (zlen (st_types s))))).
  - cbn [obind]. rewrite zlen_app, zlen_map'. destruct (Z.ltb_spec (zlen (st_types s) + zlen g) (2 ^ 32)); [| lia].
    unfold pushed. rewrite (i_super _ _ _ V), map_app, map_map. reflexivity.
  - intros t Ht. apply t_sub_map. intros l Hl. apply In_nthz in Ht. destruct Ht as [k Hk]. destruct (Sc k t Hk) as [F _]. rewrite Forall_forall in F. specialize (F l Hl).
    destruct l; cbn in *; [| reflexivity]. unfold MAX_INDEX. destruct (Z.ltb_spec (zlen (st_types s) + i) (2 ^ 20)); [reflexivity | lia].
Qed.
Lemma depths_pushed s gs D g : inv s gs D -> depths (st_types (pushed s g)) (pushed s g) (zlen (st_types s)).
Proof.
  intros V i t Ht L. unfold pushed, is_type in Ht. cbn [st_types] in Ht. rewrite nthz_app_l in Ht by assumption.
  destruct (i_depths _ _ _ V i t Ht L) as [X|(d & A & B & C)]; [left; assumption |]. right. exists d. split; [exact A |]. split; [apply depth_mono; exact B | exact C].
Qed.
Lemma built_pushed s gs D g : inv s gs D -> find_group g (st_canon s) = None -> scoped (zlen (st_types s)) g ->
  built (gs ++ [g]) (st_types (pushed s g)) (st_ranges (pushed s g)) (st_canon (pushed s g)) (D ++ map (Outside (close D g)) (count 0 g)).
Proof. intros V N Sc. apply built_snoc; [apply V | assumption |]. eapply find_none; [apply V | assumption]. Qed.
Lemma kinds_pushed s gs D g : inv s gs D -> let T := st_types (pushed s g) in
  (forall k t j u, zlen (st_types s) <= k -> is_type T k t -> s_super t = Some j -> is_type T j u -> c_shared (s_comp t) = c_shared (s_comp u) /\ kind_of (s_comp t) = kind_of (s_comp u)) ->
  kinds T.
Proof.
  intros V T H i t j u Ht Es Hu. destruct (Z_lt_ge_dec i (zlen (st_types s))) as [L|L]; [| apply (H i t j u); try assumption; lia].
  unfold T, is_type in Ht, Hu. cbn [st_types pushed] in Ht, Hu. rewrite nthz_app_l in Ht by assumption.
  pose proof (refs_super _ (built_ordered _ _ _ _ _ (i_built _ _ _ V)) _ _ _ Ht Es) as Dj. unfold defined in Dj. rewrite nthz_app_l in Hu by lia.
  eapply valid_kinds; eauto. apply (i_valid _ _ _ V).
Qed.
(** Adding a group. *)
Lemma range_new s g : nthz (st_ranges (pushed s g)) (zlen (st_ranges s)) = Some (zlen (st_types s), zlen (st_types s) + zlen g).
Proof. cbn [st_ranges pushed]. rewrite nthz_app_r by lia. rewrite Z.sub_diag. reflexivity. Qed.
Lemma nat_diff (a : Z) {A} (g : list A) : Z.to_nat (a + zlen g - a) = List.length g.
Proof. unfold zlen. lia. Qed.
Lemma pushed_len s g : zlen (st_types (pushed s g)) = zlen (st_types s) + zlen g.
Proof. cbn [st_types pushed]. rewrite zlen_app, zlen_map'. reflexivity. Qed.
Lemma add_group_done s gs D ids g s' ids' : inv s gs D -> Forall (defined (st_types s)) ids -> add_group s ids g = Done (s', ids') ->
  exists c st, canon_group ids g = Done c /\ ids' = ids ++ span (List.length g) st /\
    ((s' = s /\ exists gid, find_group c (st_canon s) = Some gid /\ nthz (st_ranges s) gid = Some (st, st + zlen g)) \/
     (find_group c (st_canon s) = None /\ st = zlen (st_types s) /\ st_types s' = st_types s ++ placed ids (zlen (st_types s)) g /\ inv s' (gs ++ [c]) (D ++ map (Outside (close D c)) (count 0 c)))).
Proof.
  intros V F. unfold add_group. destruct (_ <? zlen g); [discriminate |]. intros H. apply obind_done in H. destruct H as (c & Ec & H).
  assert (Lc : zlen c = zlen g) by (apply canon_types_done in Ec; destruct Ec as [-> _]; apply zlen_map').
  assert (Sc : scoped (zlen (st_types s)) c) by (eapply canon_scoped; [exact Ec | exact F]).
  apply obind_done in H. destruct H as (r & Er & H). exists c.
  destruct (intern_done _ _ _ _ _ V Er) as [(gid & Ef & ->)|(Ef & ->)]; cbn [fst snd] in H.
  - destruct (built_find _ _ _ _ _ _ _ (i_built _ _ _ V) Ef) as (st & Hr & _). rewrite Hr in H. cbn [unwrap obind fst snd] in H.
    rewrite nat_diff, loop_old in H. inversion H; subst. exists st. split; [assumption |]. split; [unfold zlen in Lc; rewrite (Nat2Z.inj _ _ Lc); reflexivity |].
    left. split; [reflexivity |]. exists gid. rewrite <- Lc. auto.
  - rewrite range_new in H. cbn [unwrap obind fst snd] in H. rewrite nat_diff in H. exists (zlen (st_types s)). split; [assumption |].
    assert (B := built_pushed _ _ _ _ V Ef Sc). assert (O := built_ordered _ _ _ _ _ B). assert (HH : holds (st_types (pushed s c)) (pushed s c)) by (split; reflexivity).
    assert (LT : zlen (st_types s) + Z.of_nat (List.length c) <= zlen (st_types (pushed s c))) by (rewrite pushed_len; unfold zlen; lia).
    pose proof (depths_pushed _ _ _ c V) as Dp. pose proof (zlen_nonneg (st_types s)) as L0.
    destruct (loop_done _ O _ _ _ _ _ _ HH L0 LT Dp H) as ((E1 & E2 & E3 & E4 & E5) & -> & Dp' & Kn).
    assert (K : kinds (st_types (pushed s c))).
    { eapply kinds_pushed; [exact V |]. intros k t j u Lk Ht. apply (Kn k); [| assumption]. apply nthz_some in Ht. rewrite pushed_len in Ht. unfold zlen in Ht |- *. unfold zlen in Lk. lia. }
    assert (NV : forall k t, zlen (st_types s) <= k < zlen (st_types s) + Z.of_nat (List.length c) -> is_type (st_types (pushed s c)) k t -> valid_type (st_types (pushed s c)) k t).
    { apply (proj2 (loop_accepts _ O K _ _ _ ids HH L0 LT Dp)). eauto. }
    split; [unfold zlen in Lc; rewrite (Nat2Z.inj _ _ Lc); reflexivity |]. right. split; [assumption |]. split; [reflexivity |].
    split; [rewrite E1; cbn [st_types pushed]; f_equal; apply canon_placed; assumption |]. constructor.
    + rewrite E1, E4, E5. exact B.
    + rewrite E1, E3. reflexivity.
    + rewrite E1. intros i t Ht. destruct (Z_lt_ge_dec i (zlen (st_types s))) as [L|L].
      * assert (Ht' : is_type (st_types s) i t) by (unfold is_type in *; cbn [st_types pushed] in Ht; rewrite nthz_app_l in Ht by assumption; exact Ht).
        apply valid_mono; [apply (built_ordered _ _ _ _ _ (i_built _ _ _ V)) | assumption | apply (i_valid _ _ _ V); assumption].
      * apply NV; [| assumption]. apply nthz_some in Ht. rewrite pushed_len in Ht. unfold zlen in Ht |- *. unfold zlen in L. lia.
    + rewrite E1, pushed_len. exact Dp'.
Qed.
Lemma add_group_accepts s gs D ids g : inv s gs D -> Forall (defined (st_types s)) ids -> zlen (st_types s) + zlen g <= MAX_INDEX ->
  settled (add_group s ids g) /\
  (forall c, canon_group ids g = Done c -> find_group c (st_canon s) = None ->
    ((exists r, add_group s ids g = Done r) <-> zlen ids + zlen g <= 1000000 /\
      let T := st_types s ++ placed ids (zlen (st_types s)) g in forall k t, zlen (st_types s) <= k -> is_type T k t -> valid_type T k t)) /\
  (forall c gid, canon_group ids g = Done c -> find_group c (st_canon s) = Some gid -> zlen ids + zlen g <= 1000000 ->
    exists ids', add_group s ids g = Done (s, ids')) /\
  (~ group_in_scope (zlen ids) g -> forall r, add_group s ids g <> Done r).
Proof.
  intros V F L. pose proof (zlen_nonneg (st_types s)) as L0. pose proof (zlen_nonneg g) as Lg.
  assert (CA : accepts (canon_group ids g) (group_in_scope (zlen ids) g)).
  { apply canon_group_accepts; [| unfold MAX_INDEX in *; lia]. eapply Forall_impl; [| exact F]. unfold defined. intros. lia. }
  assert (Main : forall c, canon_group ids g = Done c -> zlen c = zlen g /\ scoped (zlen (st_types s)) c).
  { intros c Ec. split; [apply canon_types_done in Ec; destruct Ec as [-> _]; apply zlen_map' |]. eapply canon_scoped; [exact Ec | exact F]. }
  assert (New : forall c, canon_group ids g = Done c -> find_group c (st_canon s) = None ->
    settled (add_ids (List.length c) (zlen (st_types s)) true (pushed s c) ids) /\
    ((exists r, add_ids (List.length c) (zlen (st_types s)) true (pushed s c) ids = Done r) <->
      let T := st_types s ++ placed ids (zlen (st_types s)) g in forall k t, zlen (st_types s) <= k -> is_type T k t -> valid_type T k t)).
  { intros c Ec Ef. destruct (Main c Ec) as [Lc Sc].
    assert (B := built_pushed _ _ _ _ V Ef Sc). assert (O := built_ordered _ _ _ _ _ B). assert (HH : holds (st_types (pushed s c)) (pushed s c)) by (split; reflexivity).
    assert (LT : zlen (st_types s) + Z.of_nat (List.length c) <= zlen (st_types (pushed s c))) by (rewrite pushed_len; unfold zlen; lia).
    pose proof (depths_pushed _ _ _ c V) as Dp. split; [apply (loop_settled _ O); assumption |].
    rewrite <- (canon_placed ids g c (zlen (st_types s)) Ec). change (st_types s ++ map (m_sub (super_id (zlen (st_types s)))) c) with (st_types (pushed s c)). cbv zeta. split.
    - intros ([s2 ids2] & H). pose proof H as H0. apply loop_done with (T := st_types (pushed s c)) in H; try assumption. destruct H as (_ & _ & _ & Kn).
      assert (K : kinds (st_types (pushed s c))).
      { eapply kinds_pushed; [exact V |]. intros k t j u Lk Ht. apply (Kn k); [| assumption]. apply nthz_some in Ht. rewrite pushed_len in Ht. unfold zlen in Ht |- *. unfold zlen in Lk. lia. }
      intros k t Lk Ht. apply (proj2 (loop_accepts _ O K _ _ _ ids HH L0 LT Dp)); [eauto | | assumption].
      apply nthz_some in Ht. rewrite pushed_len in Ht. unfold zlen in Ht |- *. unfold zlen in Lk. lia.
    - intros H. assert (K : kinds (st_types (pushed s c))).
      { apply valid_kinds. intros i t Ht. destruct (Z_lt_ge_dec i (zlen (st_types s))) as [Li|Li]; [| apply H; [lia | assumption]].
        assert (Ht' : is_type (st_types s) i t) by (unfold is_type in *; cbn [st_types pushed] in Ht; rewrite nthz_app_l in Ht by assumption; exact Ht).
        apply valid_mono; [apply (built_ordered _ _ _ _ _ (i_built _ _ _ V)) | assumption | apply (i_valid _ _ _ V); assumption]. }
      apply (proj2 (loop_accepts _ O K _ _ _ ids HH L0 LT Dp)). intros k t Lk Ht. apply H; [lia | assumption]. }
  unfold add_group, limits_MAX_WASM_TYPES. destruct (Z.ltb_spec (1000000 - zlen ids) (zlen g)) as [Lx|Lx].
  { split; [exact I |]. split; [intros c Ec Ef; split; [intros [r E]; discriminate | intros [X _]; lia] |]. split; [intros; lia | intros _ r E; discriminate]. }
  split; [| split; [| split]].
  - apply settled_bind; [apply CA |]. intros c Ec. destruct (Main c Ec) as [Lc Sc]. rewrite (intern_ok s gs D c V) by (try assumption; lia).
    destruct (find_group c (st_canon s)) as [gid|] eqn:Ef; cbn [obind].
    + destruct (built_find _ _ _ _ _ _ _ (i_built _ _ _ V) Ef) as (st & Hr & _). rewrite Hr. cbn [unwrap obind fst snd]. rewrite loop_old. exact I.
    + rewrite range_new. cbn [unwrap obind fst snd]. rewrite nat_diff. apply (New c Ec Ef).
  - intros c Ec Ef. destruct (Main c Ec) as [Lc Sc]. rewrite Ec. cbn [obind]. rewrite (intern_ok s gs D c V) by (try assumption; lia). rewrite Ef. cbn [obind].
    rewrite range_new. cbn [unwrap obind fst snd]. rewrite nat_diff. rewrite (proj2 (New c Ec Ef)). cbv zeta. split; [intros H; split; [lia | assumption] | tauto].
  - intros c gid Ec Ef _. destruct (Main c Ec) as [Lc Sc]. rewrite Ec. cbn [obind]. rewrite (intern_ok s gs D c V) by (try assumption; lia). rewrite Ef. cbn [obind].
    destruct (built_find _ _ _ _ _ _ _ (i_built _ _ _ V) Ef) as (st & Hr & _). rewrite Hr. cbn [unwrap obind fst snd]. rewrite loop_old. eauto.
  - intros N r E. apply obind_done in E. destruct E as (c & Ec & _). apply N. apply CA. eauto.
Qed.

(** * Worlds *)
Definition winv (w : world) (sc : Z -> list meaning) (gs : list (list (subty loc))) (D : list meaning) : Prop :=
  inv (w_store w) gs D /\ forall k, Forall2 (fun id m => nthz D id = Some m) (w_scope w k) (sc k).
Lemma scope_defined s gs D ids env : inv s gs D -> Forall2 (fun id m => nthz D id = Some m) ids env -> Forall (defined (st_types s)) ids.
Proof.
  intros V F. destruct (built_len _ _ _ _ _ (i_built _ _ _ V)) as (LD & _). unfold defined. induction F; constructor; [| assumption].
  apply nthz_some in H. lia.
Qed.
Lemma span_meaning D n st (X : list (subty meaning)) : forall k0, (forall k, k0 <= k < k0 + Z.of_nat n -> nthz D (st + k) = Some (Outside X k)) ->
  forall g : list (subty Z), List.length g = n -> Forall2 (fun id m => nthz D id = Some m) (span n (st + k0)) (map (Outside X) (count k0 g)).
Proof.
  induction n as [|n IH]; intros k0 H [|t g] E; try discriminate; cbn [span count map]; [constructor |].
  constructor; [apply H; lia |]. rewrite <- Z.add_assoc. apply IH; [intros; apply H; lia | cbn in E; lia].
Qed.
Lemma Forall2_snoc {A B} (P : A -> B -> Prop) l m l' m' : Forall2 P l m -> Forall2 P l' m' -> Forall2 P (l ++ l') (m ++ m').
Proof. intros F F'. induction F; cbn; [assumption | constructor; assumption]. Qed.
Definition host_valid T i ps rs : is_type T i (m_sub (super_id 0) (host_type ps rs)) -> valid_type T i (m_sub (super_id 0) (host_type ps rs)).
Proof.
  intros H. constructor; cbn.
  - discriminate.
  - discriminate.
  - discriminate.
  - exists 0. split; [eapply depth_root; [exact H | reflexivity] | lia].
  - intros [X|X]; congruence.
  - discriminate.
  - discriminate.
  - discriminate.
Qed.
Lemma host_refs {I} ps rs : refs_sub (mkS true None (mkC (IFunc (map num_val ps) (map num_val rs)) false None None) : subty I) = [].
Proof.
  unfold refs_sub; cbn. assert (X : forall l, flat_map (@refs_val I) (map num_val l) = []) by (induction l as [|[] l IH]; cbn; auto). rewrite !X. reflexivity.
Qed.
Lemma host_map f ps rs : m_sub f (host_type ps rs) = m_sub (super_id 0) (host_type ps rs).
Proof. apply m_sub_ext. unfold host_type. rewrite host_refs. intros i []. Qed.
Lemma step_inv w e w' sc gs D : winv w sc gs D -> step w e = Done w' -> exists gs' D', winv w' (meanings sc [e]) gs' D'.
Proof.
  intros [V F]. destruct e as [k g|k from i|ps rs]; cbn [step meanings]; intros H.
  - apply obind_done in H. destruct H as ([s' ids'] & Ha & H). inversion H; subst w'. cbn [fst snd].
    pose proof (scope_defined _ _ _ _ _ V (F k)) as Df.
    destruct (add_group_done _ _ _ _ _ _ _ V Df Ha) as (c & st & Ec & -> & Cases).
    assert (Lc : List.length c = List.length g) by (apply canon_types_done in Ec; destruct Ec as [-> _]; apply map_length).
    assert (Done' : forall gs' D' gid, inv s' gs' D' -> find_group c (st_canon s') = Some gid -> nthz (st_ranges s') gid = Some (st, st + zlen g) ->
      (forall q, Forall2 (fun id m => nthz D' id = Some m) (w_scope w q) (sc q)) ->
      winv (mkWorld s' (upd (w_scope w) k (w_scope w k ++ span (List.length g) st))) (mupd sc k (sc k ++ group_types (sc k) g)) gs' D').
    { intros gs' D' gid V' Ef Hr F'. split; [exact V' |]. intros q. cbn [w_scope]. unfold upd, mupd. destruct (q =? k); [| apply F'].
      apply Forall2_snoc; [apply F' |]. unfold group_types. destruct (built_find _ _ _ _ _ _ _ (i_built _ _ _ V') Ef) as (st' & Hr' & _ & _ & _ & _ & HD).
      assert (st' = st) by congruence. subst st'. rewrite <- (canon_meaning _ _ _ _ _ Ec (F' k)). rewrite <- (Z.add_0_r st).
      apply span_meaning; [| reflexivity]. intros q' Hq. apply HD. unfold zlen. lia. }
    destruct Cases as [(-> & gid & Ef & Hr)|(Ef & -> & ET & V')].
    + exists gs, D. eapply Done'; eauto.
    + exists (gs ++ [c]), (D ++ map (Outside (close D c)) (count 0 c)).
      assert (Sc : scoped (zlen (st_types (w_store w))) c) by (eapply canon_scoped; [exact Ec | exact Df]).
      assert (EC : exists gid, find_group c (st_canon s') = Some gid).
      { destruct (find_group c (st_canon s')) eqn:E; [eauto |]. exfalso. eapply (find_none _ _ _ _ _ _ (i_built _ _ _ V')); [exact E |]. apply in_or_app. right; left; reflexivity. }
      destruct EC as [gid EC]. eapply Done'; [exact V' | exact EC | |].
      * destruct (built_find _ _ _ _ _ _ _ (i_built _ _ _ V') EC) as (st' & Hr' & A1 & A2 & A3 & A4 & HD). rewrite Hr'.
        assert (ELc : zlen c = zlen g) by (unfold zlen; rewrite Lc; reflexivity). rewrite ELc. destruct c as [|t0 c0].
        -- (* an empty group *)
           pose proof (i_built _ _ _ V') as B. inversion B as [|gs0 T0 R0 C0 D0 g0 B0 S0 N0 E1 E2 E3 E4 E5]; [destruct gs; discriminate |].
           apply app_inj_tail in E1. destruct E1 as [<- ->]. rewrite <- E4, find_app in EC.
           rewrite (proj2 (find_none _ _ _ _ _ _ B0) N0) in EC. cbn in EC. destruct (group_dec [] []) as [_|]; [| congruence]. inversion EC; subst gid.
           rewrite <- E3 in Hr'. rewrite nthz_app_r in Hr' by lia. rewrite Z.sub_diag, nthz_cons0 in Hr'. inversion Hr'; subst st'.
           rewrite ET in E2. assert (zlen (placed (w_scope w k) (zlen (st_types (w_store w))) g) = 0) by (unfold placed; rewrite zlen_map', <- ELc; reflexivity).
           apply (f_equal zlen) in E2. rewrite !zlen_app in E2. cbn [map] in E2. rewrite zlen_nil in E2. replace (zlen T0) with (zlen (st_types (w_store w))) by lia. reflexivity.
        -- assert (X : nthz (D ++ map (Outside (close D (t0 :: c0))) (count 0 (t0 :: c0))) (st' + 0) = Some (Outside (close (D ++ map (Outside (close D (t0 :: c0))) (count 0 (t0 :: c0))) (t0 :: c0)) 0)).
           { apply HD. rewrite zlen_cons. pose proof (zlen_nonneg c0). lia. }
           destruct (built_len _ _ _ _ _ (i_built _ _ _ V)) as (LD & _).
           assert (Y : nthz (D ++ map (Outside (close D (t0 :: c0))) (count 0 (t0 :: c0))) (zlen (st_types (w_store w))) = Some (Outside (close (D ++ map (Outside (close D (t0 :: c0))) (count 0 (t0 :: c0))) (t0 :: c0)) 0)).
           { rewrite nthz_app_r by lia. rewrite LD, Z.sub_diag. cbn [count map]. rewrite nthz_cons0. erewrite close_app; [reflexivity | exact Sc | lia]. }
           assert (st' + 0 = zlen (st_types (w_store w))) by (eapply built_inj; [apply V' | exact X | exact Y]).
           rewrite Z.add_0_r in H0. subst st'. reflexivity.
      * intros q. eapply Forall2_map_mono; [| apply F]. intros a b Hab. apply nthz_app_some. exact Hab.
  - destruct (nthz (w_scope w from) i) as [id|] eqn:E; [| discriminate]. inversion H; subst w'. exists gs, D. split; [exact V |]. intros q. cbn [w_scope]. unfold upd, mupd. destruct (q =? k); [| apply F].
    apply Forall2_snoc; [apply F |]. pose proof (F from) as Ff. apply Forall2_nthz in Ff. destruct Ff as [FL Ff].
    destruct (nthz_ex (sc from) i) as [m Hm]; [apply nthz_some in E; unfold zlen in *; lia |]. rewrite Hm. constructor; [eapply Ff; eauto | constructor].
  - apply obind_done in H. destruct H as (r & Hr & H). inversion H; subst w'. clear H.
    destruct (intern_done _ _ _ _ _ V Hr) as [(gid & Ef & ->)|(Ef & ->)]; cbn [fst].
    + exists gs, D. split; assumption.
    + assert (Sc : scoped (zlen (st_types (w_store w))) [host_type ps rs]).
      { intros q t Hq. assert (t = host_type ps rs) by (apply nthz_In in Hq; destruct Hq as [<-|[]]; reflexivity). subst t. unfold host_type; rewrite host_refs. split; [constructor | exact I]. }
      pose proof (built_pushed _ _ _ _ V Ef Sc) as B. eexists _, _. split; [| intros q; eapply Forall2_map_mono; [| apply F]; intros a b Hab; apply nthz_app_some; exact Hab].
      constructor; [exact B | reflexivity | |]; cbn [w_store].
      * intros i t Ht. destruct (Z_lt_ge_dec i (zlen (st_types (w_store w)))) as [L|L].
        -- assert (Ht' : is_type (st_types (w_store w)) i t) by (unfold is_type in *; cbn [st_types pushed] in Ht; rewrite nthz_app_l in Ht by assumption; exact Ht).
           apply valid_mono; [apply (built_ordered _ _ _ _ _ (i_built _ _ _ V)) | assumption | apply (i_valid _ _ _ V); assumption].
        -- assert (t = m_sub (super_id 0) (host_type ps rs)).
           { unfold is_type in Ht. cbn [st_types pushed] in Ht. rewrite nthz_app_r in Ht by lia. apply nthz_In in Ht. cbn [map] in Ht. destruct Ht as [<-|[]]. apply host_map. }
           subst t. apply host_valid. assumption.
      * intros i t Ht L. destruct (Z_lt_ge_dec i (zlen (st_types (w_store w)))) as [Li|Li]; [exact (depths_pushed _ _ _ _ V i t Ht Li) |].
        left. unfold is_type in Ht. cbn [st_types pushed] in Ht. rewrite nthz_app_r in Ht by lia. apply nthz_In in Ht. cbn [map] in Ht. destruct Ht as [<-|[]]. split; reflexivity.
Qed.
Lemma meanings_app sc h1 h2 : meanings sc (h1 ++ h2) = meanings (meanings sc h1) h2.
Proof. revert sc; induction h1 as [|e h IH]; intros sc; cbn; [reflexivity |]. destruct e; apply IH. Qed.
Lemma run_inv h : forall w sc gs D w', winv w sc gs D -> run w h = Done w' -> exists gs' D', winv w' (meanings sc h) gs' D'.
Proof.
  induction h as [|e h IH]; intros w sc gs D w' W H; cbn [run] in H; [inversion H; subst; eauto |].
  apply obind_done in H. destruct H as (w1 & E & H). destruct (step_inv _ _ _ _ _ _ W E) as (gs1 & D1 & W1).
  change (e :: h) with ([e] ++ h). rewrite meanings_app. eapply IH; eauto.
Qed.
Lemma start_winv : winv start_world no_meanings [] [].
Proof.
  split; [| intros k; constructor]. constructor; cbn; [constructor | reflexivity | |]; intros i t H; apply nthz_some in H; unfold zlen in H; cbn [List.length] in H; lia.
Qed.
Lemma reached_inv h w : reached h w -> exists gs D, winv w (meanings no_meanings h) gs D.
Proof. intros H. eapply run_inv; [apply start_winv | exact H]. Qed.

(** * The theorems *)
Lemma subtype_correct h w : reached h w -> let T := st_types (w_store w) in
  (forall a b, Forall (defined T) (refs_val (VRef a)) -> Forall (defined T) (refs_val (VRef b)) -> decides (ref_is_subtype (w_store w) a b) (ref_sub T a b)) /\
  (forall a b, Forall (defined T) (refs_val a) -> Forall (defined T) (refs_val b) -> decides (val_is_subtype (w_store w) a b) (val_sub T a b)).
Proof.
  intros R T. destruct (reached_inv h w R) as (gs & D & V & _). pose proof (built_ordered _ _ _ _ _ (i_built _ _ _ V)) as O.
  pose proof (valid_kinds _ (i_valid _ _ _ V)) as K. split; intros a b Da Db.
  - apply (ref_decides T (w_store w) eq_refl (i_super _ _ _ V) O K); assumption.
  - apply (val_is_decides T (w_store w) eq_refl (i_super _ _ _ V) O K); assumption.
Qed.
Lemma val_sub_trans T a b c : val_sub T a b -> val_sub T b c -> val_sub T a c.
Proof.
  destruct a, b; cbn; try contradiction; try discriminate; destruct c; cbn; try contradiction; try discriminate; auto.
  intros [N1 H1] [N2 H2]. split; [auto | eapply hs_trans; eauto].
Qed.
Lemma subtype_order h w : reached h w -> let T := st_types (w_store w) in let ok v := Forall (defined T) (refs_val v) in let le a b := val_is_subtype (w_store w) a b = Done true in
  (forall a, le a a) /\
  (forall a b c, ok a -> ok b -> ok c -> le a b -> le b c -> le a c) /\
  (forall a b, ok a -> ok b -> le a b -> le b a -> a = b).
Proof.
  intros R T ok le. destruct (subtype_correct h w R) as [_ H]. destruct (reached_inv h w R) as (gs & D & V & _).
  assert (E : forall a b, ok a -> ok b -> (le a b <-> val_sub T a b)).
  { intros a b Da Db. destruct (H a b Da Db) as (r & Er & R'). unfold le. rewrite Er. split; [intros X; apply R'; congruence | intros X; apply R' in X; congruence]. }
  split; [| split].
  - intros a. unfold le, val_is_subtype. destruct (vty_dec Z.eq_dec a a); congruence.
  - intros a b c Da Db Dc. rewrite !E by assumption. apply val_sub_trans.
  - intros a b Da Db. rewrite !E by assumption. intros H1 H2.
    destruct a as [| | | | |ra], b as [| | | | |rb]; cbn in *; try contradiction; try congruence. destruct ra as [na ha], rb as [nb hb], H1 as [N1 H1], H2 as [N2 H2]; cbn in *.
    assert (ha = hb) by (eapply heap_sub_antisym; eauto; [apply (built_ordered _ _ _ _ _ (i_built _ _ _ V)) | apply (valid_kinds _ (i_valid _ _ _ V))]). subst.
    assert (na = nb) by (destruct na, nb; auto; try (symmetry; auto; fail)). subst. reflexivity.
Qed.
Lemma top_correct h w hp : reached h w -> let T := st_types (w_store w) in Forall (defined T) (refs_heap hp) ->
  exists top, top_type (w_store w) hp = Done top /\ heap_sub T hp top /\ forall other, heap_sub T hp other -> heap_sub T other top.
Proof.
  intros R T Dh. destruct (reached_inv h w R) as (gs & D & V & _). pose proof (built_ordered _ _ _ _ _ (i_built _ _ _ V)) as O.
  pose proof (valid_kinds _ (i_valid _ _ _ V)) as K.
  assert (Abs : forall sh t, exists t', top_type (w_store w) (HA sh t) = Done (HA sh t') /\ aht_is_subtype t t' = true /\ forall u, aht_is_subtype t u = true -> aht_is_subtype u t' = true).
  { intros sh t. cbn. eexists. split; [reflexivity |]. destruct t; split; try reflexivity; intros u; destruct u; intros E; try discriminate; reflexivity. }
  assert (Con : forall i, defined T i -> exists u t', is_type T i u /\ (forall hp, hp = HC i \/ hp = HX i -> top_type (w_store w) hp = Done (HA (c_shared (s_comp u)) t')) /\ aht_is_subtype (kind_of (s_comp u)) t' = true /\
    (forall x, aht_is_subtype (kind_of (s_comp u)) x = true -> aht_is_subtype x t' = true)).
  { intros i Di. destruct (type_at_done T (w_store w) eq_refl i Di) as (u & Eu & Hu). exists u.
    unfold kind_of. destruct (c_inner (s_comp u)) eqn:Ei; eexists; (split; [exact Hu |]);
      (split; [intros hp' [->| ->]; cbn [top_type]; rewrite Eu; cbn; rewrite Ei; reflexivity |]); split; try reflexivity; intros x; destruct x; intros E; try discriminate; reflexivity. }
  destruct hp as [sh t|i|i]; cbn [refs_heap] in Dh.
  - destruct (Abs sh t) as (t' & E & A & B). exists (HA sh t'). split; [assumption |]. split; [apply aht_sub; assumption |].
    intros other Ho. apply (nf_spec T O K). apply (nf_spec T O K) in Ho. destruct other as [so to|j|j]; cbn in *.
    + destruct Ho as [<- Ho]. split; [reflexivity | apply B; assumption].
    + destruct Ho as (u & Hu & Es & ->). exists u. split; [assumption |]. split; [assumption |]. revert B. unfold bottom_of, kind_of. destruct (c_inner (s_comp u)); intros B; first [apply (B Func eq_refl) | apply (B Array eq_refl) | apply (B Struct eq_refl) | apply (B Cont eq_refl)].
    + destruct Ho as (u & Hu & Es & ->). exists u. split; [assumption |]. split; [assumption |]. revert B. unfold bottom_of, kind_of. destruct (c_inner (s_comp u)); intros B; first [apply (B Func eq_refl) | apply (B Array eq_refl) | apply (B Struct eq_refl) | apply (B Cont eq_refl)].
  - inversion Dh; subst. destruct (Con i) as (u & t' & Hu & E & A & B); [assumption |]. exists (HA (c_shared (s_comp u)) t'). split; [apply E; auto |].
    split; [eapply hs_trans; [apply hs_kind; exact Hu | apply aht_sub; assumption] |].
    intros other Ho. apply (nf_spec T O K). apply (nf_spec T O K) in Ho. destruct other as [so to|j|j]; cbn in *; [| | contradiction].
    + destruct Ho as (u' & Hu' & <- & Ho). assert (u' = u) by (unfold is_type in *; congruence). subst u'. split; [reflexivity | apply B; assumption].
    + destruct (anc_end T O _ _ _ Ho Hu) as [v Hv]. destruct (anc_kinds T K _ _ _ _ Ho Hu Hv) as [E1 E2]. exists v. split; [assumption |]. split; [congruence | rewrite <- E2; assumption].
  - inversion Dh; subst. destruct (Con i) as (u & t' & Hu & E & A & B); [assumption |]. exists (HA (c_shared (s_comp u)) t'). split; [apply E; auto |].
    split; [eapply hs_trans; [apply hs_exact |]; eapply hs_trans; [apply hs_kind; exact Hu | apply aht_sub; assumption] |].
    intros other Ho. apply (nf_spec T O K). apply (nf_spec T O K) in Ho. destruct other as [so to|j|j]; cbn in *.
    + destruct Ho as (u' & Hu' & <- & Ho). assert (u' = u) by (unfold is_type in *; congruence). subst u'. split; [reflexivity | apply B; assumption].
    + destruct (anc_end T O _ _ _ Ho Hu) as [v Hv]. destruct (anc_kinds T K _ _ _ _ Ho Hu Hv) as [E1 E2]. exists v. split; [assumption |]. split; [congruence | rewrite <- E2; assumption].
    + subst j. exists u. split; [assumption |]. split; [reflexivity | assumption].
Qed.
Lemma all_valid h w : reached h w -> forall i t, is_type (st_types (w_store w)) i t -> valid_type (st_types (w_store w)) i t.
Proof. intros R. destruct (reached_inv h w R) as (gs & D & V & _). apply (i_valid _ _ _ V). Qed.
(** Structural subtyping composes. *)
Lemma Forall2_trans {A} (P : A -> A -> Prop) : (forall a b c, P a b -> P b c -> P a c) -> forall l m n, Forall2 P l m -> Forall2 P m n -> Forall2 P l n.
Proof. intros H l m n F; revert n; induction F; intros n F'; inversion F'; subst; constructor; eauto. Qed.
Lemma sto_sub_trans T a b c : sto_sub T a b -> sto_sub T b c -> sto_sub T a c.
Proof. destruct a, b; cbn; try contradiction; try discriminate; destruct c; cbn; try contradiction; try discriminate; auto. apply val_sub_trans. Qed.
Lemma fld_sub_trans T a b c : fld_sub T a b -> fld_sub T b c -> fld_sub T a c.
Proof.
  intros (A1 & A2 & A3) (B1 & B2 & B3). split; [congruence |]. split; [eapply sto_sub_trans; eauto |]. intros E. eapply sto_sub_trans; [apply B3; congruence | apply A3; assumption].
Qed.
Lemma Forall2_app_r {A B} (P : A -> B -> Prop) l m1 m2 : Forall2 P l (m1 ++ m2) -> exists l1 l2, l = l1 ++ l2 /\ Forall2 P l1 m1 /\ Forall2 P l2 m2.
Proof. intros F. apply Forall2_app_inv_r in F. destruct F as (l1 & l2 & F1 & F2 & ->). eauto. Qed.
Lemma comp_sub_trans T a b c : comp_sub T a b -> comp_sub T b c -> comp_sub T a c.
Proof.
  intros [A1 A2] [B1 B2]. split; [congruence |].
  destruct (c_inner a), (c_inner b); try contradiction; destruct (c_inner c); try contradiction.
  - destruct A2, B2. split; eapply Forall2_trans; eauto; apply val_sub_trans.
  - eapply fld_sub_trans; eauto.
  - destruct A2 as (same & rest & -> & F), B2 as (same' & rest' & -> & F').
    destruct (Forall2_app_r _ _ _ _ F) as (l1 & l2 & -> & F1 & F2). exists l1, (l2 ++ rest). split; [symmetry; apply app_assoc |].
    eapply Forall2_trans; [apply fld_sub_trans | exact F1 | exact F'].
  - eapply hs_trans; eauto.
Qed.
Lemma comp_sub_refl T a : comp_sub T a a.
Proof.
  assert (V : forall v, val_sub T v v) by (intros []; cbn; try reflexivity; split; [auto | apply hs_refl]).
  assert (FV : forall l, Forall2 (val_sub T) l l) by (induction l; constructor; auto).
  assert (S : forall s, sto_sub T s s) by (intros []; cbn; auto).
  assert (FF : forall f, fld_sub T f f) by (intros f; split; [reflexivity | split; auto]).
  split; [reflexivity |]. destruct (c_inner a); [split; apply FV | apply FF | | apply hs_refl].
  exists fs, []. split; [symmetry; apply app_nil_r |]. induction fs; constructor; auto.
Qed.
Lemma declared_match h w : reached h w -> let T := st_types (w_store w) in forall i j t u,
  heap_sub T (HC i) (HC j) -> is_type T i t -> is_type T j u -> comp_sub T (s_comp t) (s_comp u).
Proof.
  intros R T. destruct (reached_inv h w R) as (gs & D & V & _). pose proof (built_ordered _ _ _ _ _ (i_built _ _ _ V)) as O.
  pose proof (valid_kinds _ (i_valid _ _ _ V)) as K. intros i j t u H Ht Hu. apply (nf_spec T O K) in H. cbn in H.
  revert t Ht. induction H as [a|a t' c b Ht' Es H IH]; intros t Ht.
  - assert (t = u) by (unfold is_type in *; congruence). subst. apply comp_sub_refl.
  - assert (t' = t) by (unfold is_type in *; congruence). subst t'. destruct (v_super _ _ _ (i_valid _ _ _ V _ _ Ht) _ Es) as (v & Hv & _ & Sv).
    eapply comp_sub_trans; [exact Sv | apply IH; assumption].
Qed.
Lemma ids_meaning h w : reached h w -> let m := meanings no_meanings h in
  (forall k, zlen (w_scope w k) = zlen (m k)) /\
  forall k1 i1 id1 k2 i2 id2, nthz (w_scope w k1) i1 = Some id1 -> nthz (w_scope w k2) i2 = Some id2 ->
    (id1 = id2 <-> nthz (m k1) i1 = nthz (m k2) i2).
Proof.
  intros R m. destruct (reached_inv h w R) as (gs & D & V & F). split.
  - intros k. specialize (F k). apply Forall2_length in F. unfold zlen. unfold m. lia.
  - intros k1 i1 id1 k2 i2 id2 H1 H2. pose proof (F k1) as F1. pose proof (F k2) as F2. apply Forall2_nthz in F1, F2. destruct F1 as [L1 F1], F2 as [L2 F2].
    destruct (nthz_ex (m k1) i1) as [m1 M1]; [apply nthz_some in H1; unfold zlen, m in *; lia |].
    destruct (nthz_ex (m k2) i2) as [m2 M2]; [apply nthz_some in H2; unfold zlen, m in *; lia |].
    rewrite M1, M2. pose proof (F1 _ _ _ H1 M1) as E1. pose proof (F2 _ _ _ H2 M2) as E2. split.
    + intros <-. congruence.
    + intros E. inversion E; subst. eapply built_inj; [apply V | exact E1 | exact E2].
Qed.
Lemma slice_of_find s gs D ids g c gid : inv s gs D -> canon_group ids g = Done c -> find_group c (st_canon s) = Some gid ->
  exists pre post, st_types s = pre ++ placed ids (zlen pre) g ++ post.
Proof.
  intros V Ec Ef. destruct (built_find _ _ _ _ _ _ _ (i_built _ _ _ V) Ef) as (st & _ & S0 & S1 & _ & HT & _).
  assert (Lc : zlen c = zlen g) by (apply canon_types_done in Ec; destruct Ec as [-> _]; apply zlen_map').
  set (T := st_types s) in *. set (pre := firstn (Z.to_nat st) T).
  assert (Lp : zlen pre = st) by (unfold pre, zlen in *; rewrite firstn_length; lia).
  exists pre, (skipn (Z.to_nat (zlen g)) (skipn (Z.to_nat st) T)). rewrite Lp, <- (canon_placed ids g c st Ec).
  assert (X : firstn (Z.to_nat (zlen g)) (skipn (Z.to_nat st) T) = map (m_sub (super_id st)) c).
  { apply nthz_ext.
    - rewrite zlen_map'. unfold zlen in *. rewrite firstn_length, skipn_length. lia.
    - intros i Hi. assert (Hi' : 0 <= i < zlen c) by (unfold zlen in *; rewrite firstn_length, skipn_length in Hi; lia).
      destruct (nthz_ex c i Hi') as [t Ht]. rewrite nthz_map, Ht. cbn [option_map]. rewrite <- (HT i t Ht).
      rewrite <- (firstn_skipn (Z.to_nat st) T) at 2. fold pre. rewrite nthz_app_r by lia. replace (st + i - zlen pre) with i by lia.
      rewrite <- (firstn_skipn (Z.to_nat (zlen g)) (skipn (Z.to_nat st) T)) at 2. rewrite nthz_app_l; [reflexivity | lia]. }
  rewrite <- X, firstn_skipn. unfold pre. rewrite firstn_skipn. reflexivity.
Qed.
Lemma accepted_groups h w k g : reached h w -> let T := st_types (w_store w) in let ids := w_scope w k in
  zlen T + zlen g <= 2 ^ 20 -> (~ exists pre post, T = pre ++ placed ids (zlen pre) g ++ post) ->
  ((exists w', step w (AddGroup k g) = Done w') <->
   zlen ids + zlen g <= 1000000 /\ group_in_scope (zlen ids) g /\
   let T' := T ++ placed ids (zlen T) g in forall i t, zlen T <= i -> is_type T' i t -> valid_type T' i t).
Proof.
  intros R T ids L N. destruct (reached_inv h w R) as (gs & D & V & F). pose proof (scope_defined _ _ _ _ _ V (F k)) as Df.
  destruct (add_group_accepts _ _ _ ids g V Df L) as (_ & A & _ & B). cbn [step]. fold ids.
  assert (CA : accepts (canon_group ids g) (group_in_scope (zlen ids) g)).
  { apply canon_group_accepts; [| unfold MAX_INDEX; pose proof (zlen_nonneg T); lia]. eapply Forall_impl; [| exact Df]. unfold defined, MAX_INDEX. fold T. pose proof (zlen_nonneg g). intros. lia. }
  assert (St : (exists w', (do r <- add_group (w_store w) ids g in Done (mkWorld (fst r) (upd (w_scope w) k (snd r)))) = Done w') <-> exists r, add_group (w_store w) ids g = Done r).
  { split; [intros [w' H]; apply obind_done in H; destruct H as (r & E & _); eauto | intros [r ->]; cbn; eauto]. }
  rewrite St. destruct (canon_group ids g) as [c|msg| |] eqn:Ec.
  - destruct (find_group c (st_canon (w_store w))) as [gid|] eqn:Ef.
    + exfalso. apply N. eapply slice_of_find; eauto.
    + rewrite (A c eq_refl Ef). assert (group_in_scope (zlen ids) g) by (apply CA; eauto). tauto.
  - assert (NS : ~ group_in_scope (zlen ids) g) by (intros X; apply CA in X; destruct X; discriminate).
    split; [intros [r E]; exfalso; eapply B; eauto | tauto].
  - destruct CA as [[] _].
  - destruct CA as [[] _].
Qed.
(** A group already known is accepted again, as the same types. *)
Lemma known_groups h w k g : reached h w -> let m := meanings no_meanings h in let ids := w_scope w k in
  zlen (st_types (w_store w)) + zlen g <= 2 ^ 20 -> zlen ids + zlen g <= 1000000 -> group_in_scope (zlen ids) g ->
  (exists k' i' q, nthz (m k') i' = Some (Outside (group_meaning (m k) g) q)) ->
  exists w', step w (AddGroup k g) = Done w' /\ w_store w' = w_store w.
Proof.
  intros R m ids L L1 Sc (k' & i' & q & Hm). destruct (reached_inv h w R) as (gs & D & V & F). pose proof (scope_defined _ _ _ _ _ V (F k)) as Df.
  destruct (add_group_accepts _ _ _ ids g V Df L) as (_ & _ & A & _). cbn [step]. fold ids.
  assert (CA : accepts (canon_group ids g) (group_in_scope (zlen ids) g)).
  { apply canon_group_accepts; [| unfold MAX_INDEX; pose proof (zlen_nonneg (st_types (w_store w))); lia]. eapply Forall_impl; [| exact Df]. unfold defined, MAX_INDEX. pose proof (zlen_nonneg g). intros. lia. }
  apply CA in Sc. destruct Sc as [c Ec].
  assert (Ef : exists gid, find_group c (st_canon (w_store w)) = Some gid).
  { destruct (find_group c (st_canon (w_store w))) eqn:E; [eauto |]. exfalso. apply (find_none _ _ _ _ _ _ (i_built _ _ _ V)) in E. apply E.
    pose proof (F k') as Fk. apply Forall2_nthz in Fk. destruct Fk as [FL Fk].
    destruct (nthz_ex (w_scope w k') i') as [id Hid]; [apply nthz_some in Hm; unfold zlen, m in *; lia |].
    pose proof (Fk _ _ _ Hid Hm) as HD. destruct (built_entry _ _ _ _ _ (i_built _ _ _ V) _ _ HD) as (g' & q' & st & Ig & Sg & Lg & _ & Eq).
    inversion Eq as [[E1 E2]]. unfold m in E1. rewrite <- (canon_meaning _ _ _ _ _ Ec (F k)) in E1. replace c with g'; [assumption |].
    destruct (built_len _ _ _ _ _ (i_built _ _ _ V)) as (LD & _).
    symmetry. eapply (close_inj D c g' (zlen (st_types (w_store w))) st); [eapply built_inj; apply V | | eapply canon_scoped; [exact Ec | exact Df] | lia | exact Sg | exact Lg | exact E1].
    intros a b Hab. destruct (built_entry _ _ _ _ _ (i_built _ _ _ V) _ _ Hab) as (? & ? & ? & _ & _ & _ & _ & ->); eauto. }
  destruct Ef as [gid Ef]. destruct (A c gid Ec Ef L1) as [ids' E]. rewrite E. cbn. eauto.
Qed.
Definition new_types (e : event) : Z := match e with AddGroup _ g => zlen g | Alias _ _ _ => 0 | HostFunc _ _ => 1 end.
Lemma no_panic h w e : reached h w -> zlen (st_types (w_store w)) + new_types e <= 2 ^ 20 -> settled (step w e).
Proof.
  intros R L. destruct (reached_inv h w R) as (gs & D & V & F). destruct e as [k g|k from i|ps rs]; cbn [step new_types] in *.
  - apply settled_bind; [| intros; exact I]. apply (add_group_accepts _ _ _ _ g V (scope_defined _ _ _ _ _ V (F k)) L).
  - destruct (nthz (w_scope w from) i); exact I.
  - apply settled_bind; [| intros; exact I]. rewrite (intern_ok _ _ _ _ V); [| exact L |].
    + destruct (find_group _ _); exact I.
    + intros q t Hq. assert (t = host_type ps rs) by (apply nthz_In in Hq; destruct Hq as [<-|[]]; reflexivity). subst t. unfold host_type; rewrite host_refs. split; [constructor | exact I].
Qed.
