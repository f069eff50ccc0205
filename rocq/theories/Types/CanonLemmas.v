(** Lists indexed by integers, and the laws of rewriting references. *)
From Verif.Base Require Import Prelude.
From Verif.Types Require Import CanonModel CanonSpec.

(** * Indexing *)
Lemma nthz_some {A} (l : list A) i a : nthz l i = Some a -> 0 <= i < zlen l.
Proof.
  unfold nthz, zlen. destruct (Z.ltb_spec i 0) as [L | L]; [discriminate |]. intros H.
  assert (nth_error l (Z.to_nat i) <> None) by congruence. apply nth_error_Some in H0. lia.
Qed.
Lemma nthz_ex {A} (l : list A) i : 0 <= i < zlen l -> exists a, nthz l i = Some a.
Proof.
  unfold nthz, zlen. intros H. destruct (Z.ltb_spec i 0) as [L | L]; [lia |].
  destruct (nth_error l (Z.to_nat i)) eqn:E; [eauto |]. apply nth_error_None in E. lia.
Qed.
Lemma nthz_none {A} (l : list A) i : nthz l i = None <-> ~ (0 <= i < zlen l).
Proof.
  split.
  - intros H C. destruct (nthz_ex l i C). congruence.
  - intros H. destruct (nthz l i) eqn:E; [exfalso; apply H; eapply nthz_some; eauto | reflexivity].
Qed.
Lemma nthz_app_l {A} (l m : list A) i : i < zlen l -> nthz (l ++ m) i = nthz l i.
Proof.
  unfold nthz, zlen. intros H. destruct (Z.ltb_spec i 0); [reflexivity |]. apply nth_error_app1. lia.
Qed.
Lemma nthz_app_r {A} (l m : list A) i : zlen l <= i -> nthz (l ++ m) i = nthz m (i - zlen l).
Proof.
  unfold nthz, zlen. intros H. destruct (Z.ltb_spec i 0); [lia |].
  destruct (Z.ltb_spec (i - Z.of_nat (List.length l)) 0); [lia |].
  rewrite nth_error_app2 by lia. f_equal. lia.
Qed.
Lemma nthz_app_some {A} (l m : list A) i a : nthz l i = Some a -> nthz (l ++ m) i = Some a.
Proof. intros H. rewrite nthz_app_l; [exact H | apply nthz_some in H; lia]. Qed.
Lemma nthz_map {A B} (f : A -> B) l i : nthz (map f l) i = option_map f (nthz l i).
Proof. unfold nthz. destruct (i <? 0); [reflexivity |]. apply nth_error_map. Qed.
Lemma nthz_cons0 {A} (a : A) l : nthz (a :: l) 0 = Some a. Proof. reflexivity. Qed.
Lemma nthz_cons {A} (a : A) l i : 0 < i -> nthz (a :: l) i = nthz l (i - 1).
Proof.
  unfold nthz. intros H. destruct (Z.ltb_spec i 0); [lia |]. destruct (Z.ltb_spec (i - 1) 0); [lia |].
  replace (Z.to_nat i) with (S (Z.to_nat (i - 1))) by lia. reflexivity.
Qed.
Lemma nthz_In {A} (l : list A) i a : nthz l i = Some a -> In a l.
Proof. unfold nthz. destruct (i <? 0); [discriminate | apply nth_error_In]. Qed.
Lemma In_nthz {A} (l : list A) a : In a l -> exists i, nthz l i = Some a.
Proof.
  intros H. apply In_nth_error in H. destruct H as [n H]. exists (Z.of_nat n). unfold nthz.
  destruct (Z.ltb_spec (Z.of_nat n) 0); [lia |]. rewrite Nat2Z.id. exact H.
Qed.
Lemma zlen_map' {A B} (f : A -> B) l : zlen (map f l) = zlen l.
Proof. unfold zlen. rewrite map_length. reflexivity. Qed.
Lemma nthz_ext {A} (l m : list A) : zlen l = zlen m -> (forall i, 0 <= i < zlen l -> nthz l i = nthz m i) -> l = m.
Proof.
  revert m; induction l as [|a l IH]; intros [|b m] L H; [reflexivity | unfold zlen in L; cbn in L; lia | unfold zlen in L; cbn in L; lia |].
  rewrite !zlen_cons in *. pose proof (zlen_nonneg l).
  assert (E : nthz (a :: l) 0 = nthz (b :: m) 0) by (apply H; lia). rewrite !nthz_cons0 in E. inversion E; subst.
  f_equal. apply IH; [lia |]. intros i Hi.
  specialize (H (i + 1)). rewrite !nthz_cons in H by lia. replace (i + 1 - 1) with i in H by lia. apply H; lia.
Qed.
Lemma count_len {A} k (l : list A) : zlen (count k l) = zlen l.
Proof. revert k; induction l; intros k; cbn; [reflexivity |]. rewrite !zlen_cons, IHl. reflexivity. Qed.
Lemma nthz_count {A} (l : list A) : forall k i, 0 <= i < zlen l -> nthz (count k l) i = Some (k + i).
Proof.
  induction l as [|a l IH]; intros k i H; cbn [count]; [unfold zlen in H; cbn in H; lia |].
  rewrite zlen_cons in H. destruct (Z.eq_dec i 0) as [->|N]; [rewrite nthz_cons0; f_equal; lia |].
  rewrite nthz_cons by lia. rewrite IH by lia. f_equal. lia.
Qed.

(** * Outcomes *)
Definition settled {A} (o : outcome A) : Prop := match o with Done _ | Refused _ => True | _ => False end.
Lemma obind_done {A B} (o : outcome A) (k : A -> outcome B) b : obind o k = Done b <-> exists a, o = Done a /\ k a = Done b.
Proof. destruct o; cbn; split; try discriminate; try (intros (x & E & _); discriminate); [eauto | intros (x & E & K); inversion E; subst; exact K]. Qed.
Lemma settled_bind {A B} (o : outcome A) (k : A -> outcome B) : settled o -> (forall a, o = Done a -> settled (k a)) -> settled (obind o k).
Proof. destruct o; cbn; intros S K; try contradiction; [apply K; reflexivity | exact I]. Qed.

(** * Rewriting references *)
Section Laws.
Context {I J K : Type}.

Definition val_of (d : J) (f : I -> outcome J) (i : I) : J := match f i with Done j => j | _ => d end.

Lemma t_list_map {A B} (g : A -> outcome B) (m : A -> B) l : (forall a, In a l -> g a = Done (m a)) -> t_list g l = Done (map m l).
Proof. induction l as [|a l IH]; intros H; cbn; [reflexivity |]. rewrite H by (left; reflexivity). cbn. rewrite IH by (intros; apply H; right; assumption). reflexivity. Qed.
Lemma t_list_inv {A B} (g : A -> outcome B) l r : t_list g l = Done r -> forall a, In a l -> exists b, g a = Done b.
Proof.
  revert r; induction l as [|a l IH]; intros r H x []; cbn in H; apply obind_done in H; destruct H as (b & E & H); [subst; eauto |].
  apply obind_done in H. destruct H as (r' & E' & _). eapply IH; eauto.
Qed.

Section One.
Variables (f : I -> outcome J) (g : I -> J).
Lemma t_opt_map o : (forall i, In i (refs_opt o) -> f i = Done (g i)) -> t_opt f o = Done (option_map g o).
Proof. destruct o; cbn; intros H; [rewrite H by (left; reflexivity) |]; reflexivity. Qed.
Lemma t_val_map v : (forall i, In i (refs_val v) -> f i = Done (g i)) -> t_val f v = Done (m_val g v).
Proof. destruct v as [| | | | | [n [|i|i]]]; cbn; intros H; try reflexivity; unfold t_ref; cbn; rewrite H by (left; reflexivity); reflexivity. Qed.
Lemma t_fld_map x : (forall i, In i (refs_sto (fd_elem x)) -> f i = Done (g i)) -> t_fld f x = Done (m_fld g x).
Proof. destruct x as [[| |v] m]; cbn; intros H; try reflexivity. unfold t_fld; cbn. rewrite t_val_map by exact H. reflexivity. Qed.
Lemma t_inner_map n : (forall i, In i (refs_inner n) -> f i = Done (g i)) -> t_inner f n = Done (m_inner g n).
Proof.
  destruct n as [ps rs | x | fs | i]; cbn; intros H.
  - rewrite (t_list_map _ (m_val g)) by (intros v Hv; apply t_val_map; intros i Hi; apply H, in_or_app; left; apply in_flat_map; eauto).
    cbn. rewrite (t_list_map _ (m_val g)) by (intros v Hv; apply t_val_map; intros i Hi; apply H, in_or_app; right; apply in_flat_map; eauto). reflexivity.
  - rewrite t_fld_map by exact H. reflexivity.
  - rewrite (t_list_map _ (m_fld g)) by (intros v Hv; apply t_fld_map; intros i Hi; apply H; apply in_flat_map; eauto). reflexivity.
  - rewrite H by (left; reflexivity). reflexivity.
Qed.
Lemma t_sub_map s : (forall i, In i (refs_sub s) -> f i = Done (g i)) -> t_sub f s = Done (m_sub g s).
Proof.
  unfold t_sub, m_sub, refs_sub. intros H.
  rewrite t_opt_map by (intros; apply H; rewrite !in_app_iff; tauto). cbn.
  rewrite t_opt_map by (intros; apply H; rewrite !in_app_iff; tauto). cbn.
  rewrite t_opt_map by (intros; apply H; rewrite !in_app_iff; tauto). cbn.
  rewrite t_inner_map by (intros; apply H; rewrite !in_app_iff; tauto). reflexivity.
Qed.
End One.

Lemma t_opt_inv (f : I -> outcome J) o r : t_opt f o = Done r -> forall i, In i (refs_opt o) -> exists j, f i = Done j.
Proof. destruct o; cbn; intros H x Hx; [destruct Hx as [<-|[]] | contradiction]. apply obind_done in H; destruct H as (j & E & _); eauto. Qed.
Lemma t_val_inv (f : I -> outcome J) v r : t_val f v = Done r -> forall i, In i (refs_val v) -> exists j, f i = Done j.
Proof.
  destruct v as [| | | | | [n [|i|i]]]; cbn; intros H x Hx; try contradiction; destruct Hx as [<-|[]];
    unfold t_ref in H; cbn in H; destruct (f i); try discriminate; eauto.
Qed.
Lemma t_fld_inv (f : I -> outcome J) x r : t_fld f x = Done r -> forall i, In i (refs_sto (fd_elem x)) -> exists j, f i = Done j.
Proof.
  destruct x as [[| |v] m]; cbn; intros H i Hi; try contradiction. unfold t_fld in H; cbn in H.
  destruct (t_val f v) eqn:E; try discriminate. eapply t_val_inv; eauto.
Qed.
Lemma t_inner_inv (f : I -> outcome J) n r : t_inner f n = Done r -> forall i, In i (refs_inner n) -> exists j, f i = Done j.
Proof.
  destruct n as [ps rs | x | fs | i]; cbn; intros H k Hk.
  - apply obind_done in H. destruct H as (a & E & H). apply obind_done in H. destruct H as (b & E' & _).
    apply in_app_or in Hk. destruct Hk as [Hk|Hk]; apply in_flat_map in Hk; destruct Hk as (v & Hv & Hk).
    + eapply t_list_inv in E; eauto. destruct E. eapply t_val_inv; eauto.
    + eapply t_list_inv in E'; eauto. destruct E'. eapply t_val_inv; eauto.
  - apply obind_done in H. destruct H as (a & E & H). eapply t_fld_inv; eauto.
  - apply obind_done in H. destruct H as (a & E & H). apply in_flat_map in Hk; destruct Hk as (v & Hv & Hk).
    eapply t_list_inv in E; eauto. destruct E. eapply t_fld_inv; eauto.
  - destruct Hk as [<-|[]]. apply obind_done in H. destruct H as (a & E & _). eauto.
Qed.
Lemma t_sub_inv (f : I -> outcome J) s r : t_sub f s = Done r -> forall i, In i (refs_sub s) -> exists j, f i = Done j.
Proof.
  unfold t_sub, refs_sub. intros H i Hi.
  apply obind_done in H. destruct H as (a & E1 & H). apply obind_done in H. destruct H as (b & E2 & H).
  apply obind_done in H. destruct H as (c & E3 & H). apply obind_done in H. destruct H as (d & E4 & _).
  rewrite !in_app_iff in Hi. destruct Hi as [Hi|[Hi|[Hi|Hi]]];
    [exact (t_opt_inv _ _ _ E1 _ Hi) | exact (t_opt_inv _ _ _ E2 _ Hi) | exact (t_opt_inv _ _ _ E3 _ Hi) | exact (t_inner_inv _ _ _ E4 _ Hi)].
Qed.
(** A rewriting that succeeds is a map. *)
Lemma t_sub_done (d : J) (f : I -> outcome J) s r : t_sub f s = Done r -> r = m_sub (val_of d f) s.
Proof.
  intros H. assert (E : t_sub f s = Done (m_sub (val_of d f) s)).
  { apply t_sub_map. intros i Hi. destruct (t_sub_inv _ _ _ H i Hi) as [j E]. unfold val_of. rewrite E. reflexivity. }
  congruence.
Qed.

Lemma t_list_settled {A B} (g : A -> outcome B) l : (forall a, In a l -> settled (g a)) -> settled (t_list g l).
Proof.
  induction l as [|a l IH]; intros H; cbn; [exact Logic.I |]. apply settled_bind; [apply H; left; reflexivity |]. intros b _.
  apply settled_bind; [apply IH; intros; apply H; right; assumption |]. intros; exact Logic.I.
Qed.
Lemma t_opt_settled (f : I -> outcome J) o : (forall i, In i (refs_opt o) -> settled (f i)) -> settled (t_opt f o).
Proof. destruct o; cbn; intros H; [| exact Logic.I]. apply settled_bind; [apply H; left; reflexivity | intros; exact Logic.I]. Qed.
Lemma t_val_settled (f : I -> outcome J) v : (forall i, In i (refs_val v) -> settled (f i)) -> settled (t_val f v).
Proof.
  destruct v as [| | | | | [n [|i|i]]]; cbn; intros H; try exact Logic.I; unfold t_ref; cbn; specialize (H i (or_introl eq_refl));
    destruct (f i); cbn in *; auto.
Qed.
Lemma t_fld_settled (f : I -> outcome J) x : (forall i, In i (refs_sto (fd_elem x)) -> settled (f i)) -> settled (t_fld f x).
Proof.
  destruct x as [[| |v] m]; cbn; intros H; try exact Logic.I. unfold t_fld; cbn. pose proof (t_val_settled f v H) as S.
  destruct (t_val f v); cbn in *; auto.
Qed.
Lemma t_inner_settled (f : I -> outcome J) n : (forall i, In i (refs_inner n) -> settled (f i)) -> settled (t_inner f n).
Proof.
  destruct n as [ps rs | x | fs | i]; cbn; intros H.
  - apply settled_bind; [apply t_list_settled; intros v Hv; apply t_val_settled; intros i Hi; apply H, in_or_app; left; apply in_flat_map; eauto |].
    intros a _. apply settled_bind; [apply t_list_settled; intros v Hv; apply t_val_settled; intros i Hi; apply H, in_or_app; right; apply in_flat_map; eauto |].
    intros; exact Logic.I.
  - apply settled_bind; [apply t_fld_settled; exact H | intros; exact Logic.I].
  - apply settled_bind; [apply t_list_settled; intros v Hv; apply t_fld_settled; intros i Hi; apply H; apply in_flat_map; eauto | intros; exact Logic.I].
  - apply settled_bind; [apply H; left; reflexivity | intros; exact Logic.I].
Qed.
Lemma t_sub_settled (f : I -> outcome J) s : (forall i, In i (refs_sub s) -> settled (f i)) -> settled (t_sub f s).
Proof.
  unfold t_sub, refs_sub. intros H.
  apply settled_bind; [apply t_opt_settled; intros; apply H; rewrite !in_app_iff; tauto | intros a _].
  apply settled_bind; [apply t_opt_settled; intros; apply H; rewrite !in_app_iff; tauto | intros b _].
  apply settled_bind; [apply t_opt_settled; intros; apply H; rewrite !in_app_iff; tauto | intros c _].
  apply settled_bind; [apply t_inner_settled; intros; apply H; rewrite !in_app_iff; tauto | intros; exact Logic.I].
Qed.

(** ** Maps *)
Lemma m_val_comp (f : J -> K) (g : I -> J) v : m_val f (m_val g v) = m_val (fun i => f (g i)) v.
Proof. destruct v as [| | | | | [n [|i|i]]]; reflexivity. Qed.
Lemma m_fld_comp (f : J -> K) (g : I -> J) x : m_fld f (m_fld g x) = m_fld (fun i => f (g i)) x.
Proof. destruct x as [[| |v] m]; try reflexivity. unfold m_fld; cbn. rewrite m_val_comp. reflexivity. Qed.
Lemma m_inner_comp (f : J -> K) (g : I -> J) n : m_inner f (m_inner g n) = m_inner (fun i => f (g i)) n.
Proof.
  destruct n as [ps rs | x | fs | i]; cbn; [| rewrite m_fld_comp; reflexivity | | reflexivity].
  - rewrite !map_map. f_equal; apply map_ext; intros; apply m_val_comp.
  - rewrite !map_map. f_equal; apply map_ext; intros; apply m_fld_comp.
Qed.
Lemma m_sub_comp (f : J -> K) (g : I -> J) s : m_sub f (m_sub g s) = m_sub (fun i => f (g i)) s.
Proof.
  unfold m_sub; cbn. rewrite m_inner_comp.
  destruct (s_super s), (c_descriptor (s_comp s)), (c_describes (s_comp s)); reflexivity.
Qed.
Lemma flat_map_map {A B C} (h : B -> list C) (g : A -> B) l : flat_map h (map g l) = flat_map (fun a => h (g a)) l.
Proof. induction l; cbn; [reflexivity | rewrite IHl; reflexivity]. Qed.
Lemma map_flat_map {A B C} (g : B -> C) (h : A -> list B) l : map g (flat_map h l) = flat_map (fun a => map g (h a)) l.
Proof. induction l; cbn; [reflexivity | rewrite map_app, IHl; reflexivity]. Qed.
Lemma refs_val_map (g : I -> J) v : refs_val (m_val g v) = map g (refs_val v).
Proof. destruct v as [| | | | | [n [|i|i]]]; reflexivity. Qed.
Lemma refs_fld_map (g : I -> J) x : refs_sto (fd_elem (m_fld g x)) = map g (refs_sto (fd_elem x)).
Proof. destruct x as [[| |v] m]; try reflexivity. cbn. apply refs_val_map. Qed.
Lemma refs_inner_map (g : I -> J) n : refs_inner (m_inner g n) = map g (refs_inner n).
Proof.
  destruct n as [ps rs | x | fs | i]; cbn [m_inner refs_inner]; [| apply refs_fld_map | | reflexivity].
  - rewrite map_app, !flat_map_map, !map_flat_map. f_equal; apply flat_map_ext; intros; apply refs_val_map.
  - rewrite flat_map_map, map_flat_map. apply flat_map_ext; intros; apply refs_fld_map.
Qed.
Lemma refs_sub_map (g : I -> J) s : refs_sub (m_sub g s) = map g (refs_sub s).
Proof.
  unfold refs_sub, m_sub; cbn. rewrite refs_inner_map, !map_app.
  destruct (s_super s), (c_descriptor (s_comp s)), (c_describes (s_comp s)); reflexivity.
Qed.
Lemma map_inj_in {A B} (m m' : A -> B) (l l' : list A) :
  map m l = map m' l' -> (forall a a', In a l -> In a' l' -> m a = m' a' -> a = a') -> l = l'.
Proof.
  revert l'; induction l as [|a l IH]; intros [|b l'] E H; try discriminate; [reflexivity |]. cbn in E. inversion E.
  f_equal; [apply H; [left | left |]; auto | apply IH; [assumption |]]. intros; apply H; [right | right |]; auto.
Qed.
Section Inj.
Variables (g g' : I -> J).
Lemma m_val_inj v v' : m_val g v = m_val g' v' -> (forall i i', In i (refs_val v) -> In i' (refs_val v') -> g i = g' i' -> i = i') -> v = v'.
Proof.
  destruct v as [| | | | | [n [|i|i]]], v' as [| | | | | [n' [|i'|i']]]; cbn; intros E H; try discriminate; try reflexivity; inversion E; subst; try reflexivity;
    rewrite (H i i') by auto; reflexivity.
Qed.
Lemma m_fld_inj v v' : m_fld g v = m_fld g' v' -> (forall i i', In i (refs_sto (fd_elem v)) -> In i' (refs_sto (fd_elem v')) -> g i = g' i' -> i = i') -> v = v'.
Proof.
  destruct v as [[| |v] m], v' as [[| |v'] m']; unfold m_fld; cbn; intros E H; try discriminate; inversion E; subst; try reflexivity.
  rewrite (m_val_inj v v') by auto. reflexivity.
Qed.
Lemma m_inner_inj n n' : m_inner g n = m_inner g' n' -> (forall i i', In i (refs_inner n) -> In i' (refs_inner n') -> g i = g' i' -> i = i') -> n = n'.
Proof.
  destruct n as [ps rs | x | fs | i], n' as [ps' rs' | x' | fs' | i']; cbn; intros E H; try discriminate; injection E; intros.
  - f_equal; eapply map_inj_in; try eassumption; intros a a' Ha Ha' Em; eapply m_val_inj; try eassumption; intros i i' Hi Hi' Eg; apply H; auto;
      apply in_or_app; first [left; apply in_flat_map; solve [eauto] | right; apply in_flat_map; solve [eauto]].
  - f_equal. eapply m_fld_inj; [| exact H]. unfold m_fld. f_equal; assumption.
  - f_equal. eapply map_inj_in; try eassumption. intros a a' Ha Ha' Em. eapply m_fld_inj; try eassumption. intros i i' Hi Hi' Eg. apply H; auto; apply in_flat_map; eauto.
  - f_equal. apply H; auto.
Qed.
Lemma m_opt_inj o o' : option_map g o = option_map g' o' -> (forall i i', In i (refs_opt o) -> In i' (refs_opt o') -> g i = g' i' -> i = i') -> o = o'.
Proof. destruct o, o'; cbn; intros E H; try discriminate; [| reflexivity]. inversion E. f_equal. apply H; auto. Qed.
Lemma m_sub_inj s s' : m_sub g s = m_sub g' s' -> (forall i i', In i (refs_sub s) -> In i' (refs_sub s') -> g i = g' i' -> i = i') -> s = s'.
Proof.
  destruct s as [fi su [n sh dr ds]], s' as [fi' su' [n' sh' dr' ds']]. unfold m_sub, refs_sub; cbn. intros E H. injection E; intros E1 E2 E3 E4 E5 E6.
  subst. f_equal; [| f_equal]; first [eapply m_opt_inj | eapply m_inner_inj]; try eassumption; intros i i' Hi Hi' Eg; apply H; auto; rewrite !in_app_iff; tauto.
Qed.
End Inj.
Lemma m_val_ext (g g' : I -> J) v : (forall i, In i (refs_val v) -> g i = g' i) -> m_val g v = m_val g' v.
Proof. destruct v as [| | | | | [n [|i|i]]]; cbn; intros H; try reflexivity; rewrite H by auto; reflexivity. Qed.
Lemma m_fld_ext (g g' : I -> J) x : (forall i, In i (refs_sto (fd_elem x)) -> g i = g' i) -> m_fld g x = m_fld g' x.
Proof. destruct x as [[| |v] m]; unfold m_fld; cbn; intros H; try reflexivity. rewrite (m_val_ext g g') by exact H; reflexivity. Qed.
Lemma m_sub_ext (g g' : I -> J) s : (forall i, In i (refs_sub s) -> g i = g' i) -> m_sub g s = m_sub g' s.
Proof.
  destruct s as [fi su [n sh dr ds]]. unfold m_sub, refs_sub; cbn. intros H.
  assert (O : forall o : option I, (forall i, In i (refs_opt o) -> g i = g' i) -> option_map g o = option_map g' o)
    by (intros [i|] Ho; cbn; [rewrite Ho by (left; reflexivity) |]; reflexivity).
  rewrite (O su), (O dr), (O ds) by (intros; apply H; rewrite !in_app_iff; tauto). do 2 f_equal.
  destruct n as [ps rs | x | fs | i]; cbn in *.
  - f_equal; apply map_ext_in; intros v Hv; apply m_val_ext; intros i Hi; apply H; rewrite !in_app_iff, !in_flat_map; eauto 7.
  - f_equal. apply m_fld_ext. intros; apply H; rewrite !in_app_iff; tauto.
  - f_equal. apply map_ext_in; intros v Hv; apply m_fld_ext; intros i Hi; apply H; rewrite !in_app_iff, !in_flat_map; eauto 7.
  - rewrite H by (rewrite !in_app_iff; cbn; tauto). reflexivity.
Qed.
End Laws.
