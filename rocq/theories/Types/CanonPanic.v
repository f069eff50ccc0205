(** A history after which interning a group panics: 1048576 types, then one that refers to itself. *)
From Verif.Base Require Import Prelude.
From Verif.Types Require Import CanonModel CanonSpec CanonLemmas CanonSub CanonChecks CanonTop.

Definition plain (fs : list (fty Z)) : subty Z := mkS true None (mkC (IStruct fs) false None None).
Definition A0 : subty Z := plain [].
Definition B0 : subty Z := plain [mkF (SVal VI32) false].
Definition self : subty Z := plain [mkF (SVal (VRef (mkR true (HC 0)))) false].
Definition fillA : list (subty Z) := repeat A0 (Z.to_nat 1000000).
Definition fillB : list (subty Z) := repeat B0 (Z.to_nat 48576).

Lemma zlen_repeat {A} (a : A) z : 0 <= z -> zlen (repeat a (Z.to_nat z)) = z.
Proof. intros H. unfold zlen. rewrite repeat_length. lia. Qed.
Lemma map_rep {A B} (f : A -> B) a n : map f (repeat a n) = repeat (f a) n.
Proof. induction n; cbn; [reflexivity | rewrite IHn; reflexivity]. Qed.
Lemma plain_valid T i t : t = A0 \/ t = B0 -> is_type T i t -> valid_type T i t.
Proof.
  intros E H. assert (X : s_super t = None /\ c_shared (s_comp t) = false /\ c_descriptor (s_comp t) = None /\ c_describes (s_comp t) = None /\ exists fs, c_inner (s_comp t) = IStruct fs)
    by (destruct E; subst; cbn; repeat split; eauto).
  destruct X as (E1 & E2 & E3 & E4 & fs & E5). constructor; try congruence.
  - exists 0. split; [eapply depth_root; eauto | lia].
  - intros [X|X]; congruence.
Qed.
(** Adding many copies of a closed type that is not known yet. *)
Lemma fill h w k t n : reached h w -> w_scope w k = [] -> t = A0 \/ t = B0 -> 0 < n <= 1000000 -> zlen (st_types (w_store w)) + n <= 2 ^ 20 ->
  ~ In t (st_types (w_store w)) ->
  exists w', reached (h ++ [AddGroup k (repeat t (Z.to_nat n))]) w' /\ st_types (w_store w') = st_types (w_store w) ++ repeat t (Z.to_nat n) /\
    forall q, q <> k -> w_scope w' q = w_scope w q.
Proof.
  intros R E Et Ln L N. set (g := repeat t (Z.to_nat n)). assert (Lg : zlen g = n) by (apply zlen_repeat; lia).
  assert (P : forall base, placed (w_scope w k) base g = g).
  { intros base. unfold placed, g. rewrite map_rep. f_equal. destruct Et; subst t; reflexivity. }
  assert (NE : exists rest, g = t :: rest) by (unfold g; destruct (Z.to_nat n) eqn:E0; [lia | cbn; eauto]).
  assert (NS : ~ exists pre post, st_types (w_store w) = pre ++ placed (w_scope w k) (zlen pre) g ++ post).
  { intros (pre & post & X). apply N. rewrite X, P. destruct NE as [rest ->]. apply in_or_app. right. left. reflexivity. }
  destruct (proj2 (accepted_groups h w k g R ltac:(lia) NS)) as [w' H].
  { rewrite E, zlen_nil. split; [lia |]. split.
    - intros q u Hq. apply nthz_In in Hq. apply repeat_spec in Hq. subst u. destruct Et; subst t; (split; [constructor | split; exact I]).
    - rewrite <- E, P. cbv zeta. intros i u Li Hi. apply plain_valid; [| assumption]. unfold is_type in Hi. rewrite nthz_app_r in Hi by lia.
      apply nthz_In in Hi. apply repeat_spec in Hi. subst u. assumption. }
  exists w'. split.
  - unfold reached in *. clear - R H. revert R. generalize start_world. induction h as [|e h IH]; intros w0 R; cbn [run app] in *.
    + inversion R; subst. rewrite H. reflexivity.
    + apply obind_done in R. destruct R as (w1 & E1 & R). rewrite E1. cbn [obind]. apply IH. assumption.
  - cbn [step] in H. apply obind_done in H. destruct H as ([s' ids'] & Ha & H). inversion H; subst w'. cbn [w_store w_scope fst snd].
    destruct (reached_inv h w R) as (gs & D & V & F). pose proof (scope_defined _ _ _ _ _ V (F k)) as Df.
    destruct (add_group_done _ _ _ _ _ _ _ V Df Ha) as (c & st & Ec & _ & [(-> & gid & Ef & _)|(Ef & _ & ET & _)]).
    + exfalso. apply NS. eapply slice_of_find; eauto.
    + split; [rewrite ET, P; reflexivity |]. intros q Nq. unfold upd. destruct (Z.eqb_spec q k); [contradiction | reflexivity].
Qed.
Lemma filled : exists w, reached [AddGroup 0 fillA; AddGroup 1 fillB] w /\ st_types (w_store w) = fillA ++ fillB /\ w_scope w 2 = [].
Proof.
  assert (R0 : reached [] start_world) by reflexivity.
  destruct (fill [] start_world 0 A0 1000000 R0 eq_refl) as (w1 & R1 & E1 & S1); [auto | lia | cbn [w_store start_world empty_store st_types]; rewrite zlen_nil; lia | intros [] |].
  cbn [w_store start_world empty_store st_types app] in E1. fold fillA in E1, R1. cbn [app] in R1.
  assert (L1 : zlen fillA = 1000000) by (apply zlen_repeat; lia).
  destruct (fill _ w1 1 B0 48576 R1) as (w2 & R2 & E2 & S2).
  - rewrite S1 by lia. reflexivity.
  - auto.
  - lia.
  - rewrite E1, L1. lia.
  - rewrite E1. intros X. apply repeat_spec in X. discriminate.
  - fold fillB in R2, E2. exists w2. split; [exact R2 |]. split; [congruence |]. rewrite S2, S1 by lia. reflexivity.
Qed.
Lemma interning_panics : exists h w k g, reached h w /\ step w (AddGroup k g) = Panicked /\
  zlen (w_scope w k) + zlen g <= 1000000 /\ group_in_scope (zlen (w_scope w k)) g /\
  let T := st_types (w_store w) ++ placed (w_scope w k) (zlen (st_types (w_store w))) g in
  forall i t, is_type T i t -> valid_type T i t.
Proof.
  destruct filled as (w & R & ET & ES). exists [AddGroup 0 fillA; AddGroup 1 fillB], w, 2, [self]. split; [exact R |].
  assert (LA : zlen fillA = 1000000) by (apply zlen_repeat; lia). assert (LB : zlen fillB = 48576) by (apply zlen_repeat; lia).
  assert (L : zlen (st_types (w_store w)) = 2 ^ 20) by (rewrite ET, zlen_app, LA, LB; reflexivity).
  destruct (reached_inv _ w R) as (gs & D & V & F).
  assert (Ec : canon_group [] [self] = Done [mkS true None (mkC (IStruct [mkF (SVal (VRef (mkR true (HC (LRec 0))))) false]) false None None)]) by reflexivity.
  rewrite ES. split; [| split; [| split]].
  - cbn [step]. rewrite ES. unfold add_group. change (limits_MAX_WASM_TYPES - zlen [] <? zlen [self]) with false. cbv iota. rewrite Ec. cbn [obind]. unfold intern.
    assert (LR : zlen (st_ranges (w_store w)) <= 2 ^ 20 + 1).
    { destruct (built_len _ _ _ _ _ (i_built _ _ _ V)) as (_ & E & _ & B). destruct (in_dec group_dec [] gs); lia. }
    destruct (Z.ltb_spec (zlen (st_ranges (w_store w))) (2 ^ 32)); [| lia].
    destruct (find_group _ (st_canon (w_store w))) as [gid|] eqn:Ef.
    + exfalso. destruct (slice_of_find _ _ _ _ _ _ _ V Ec Ef) as (pre & post & X).
      assert (I : In (m_sub (place [] (zlen pre)) self) (fillA ++ fillB)) by (rewrite <- ET, X; apply in_or_app; right; left; reflexivity).
      apply in_app_or in I. destruct I as [I|I]; apply repeat_spec in I; discriminate.
    + rewrite L. reflexivity.
  - change (zlen [self]) with 1. rewrite zlen_nil. lia.
  - intros k t Hk. assert (t = self /\ k = 0).
    { pose proof (nthz_some _ _ _ Hk) as B. change (zlen [self]) with 1 in B. split; [apply nthz_In in Hk; destruct Hk as [<-|[]]; reflexivity | lia]. }
    destruct H as [-> ->]. split; [| split; exact I]. repeat constructor; rewrite ?zlen_nil; change (zlen [self]) with 1; lia.
  - cbv zeta. intros i t Hi. destruct (Z_lt_ge_dec i (zlen (st_types (w_store w)))) as [Li|Li].
    + assert (Hi' : is_type (st_types (w_store w)) i t) by (unfold is_type in *; rewrite nthz_app_l in Hi by assumption; exact Hi).
      apply valid_mono; [apply (built_ordered _ _ _ _ _ (i_built _ _ _ V)) | assumption | apply (i_valid _ _ _ V); assumption].
    + pose proof Hi as Hi0. unfold is_type in Hi0. rewrite nthz_app_r in Hi0 by lia. apply nthz_In in Hi0. destruct Hi0 as [<-|[]].
      constructor; cbn; try congruence.
      * exists 0. split; [eapply depth_root; eauto | lia].
      * intros [X|X]; congruence.
Qed.
