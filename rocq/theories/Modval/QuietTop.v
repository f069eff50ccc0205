(** Modules that do not panic the validator. *)
From Verif.Base Require Import Prelude.
From Verif.Reader Require Import Model Spec.
From Verif.Codec Require Import Kit.
From Verif.Types Require Import RefModel CodecModel EntityModel CanonModel CanonSpec CanonLemmas CanonSub CanonChecks CanonTop.
From Verif.Instr Require Import ImmModel Ops BodyModel.
From Verif.Sections Require Import SegModel Item.
From Verif.Validator Require Import State Checks Visit Api Body Module.
From Verif.Modval Require Import Model Spec Stages Top QuietRead Quiet.

(** A section as its reader gives it: the items read out of some bytes, and bodies that are bytes.  The other sections have no more than numbers and names. *)
Definition read_by {A} (item : R A) (ft : features) (l : list A) : Prop := exists off bs, bytes_ok bs /\ section_items item ft off bs = Ok l.
Definition as_read (ft : features) (d : sec) : Prop :=
  match d with
  | STypes l => read_by read_rec ft l
  | SImports l => read_by read_imports ft l
  | STables l => read_by read_table_def ft l
  | SGlobals l => read_by read_global_def ft l
  | SElements l => read_by read_elem ft l
  | SData l => read_by SegModel.read_data ft l
  | SCode l => Forall bytes_ok l
  | SFunctions _ | SMemories _ | STags _ | SExports _ | SStart _ | SDataCount _ => True
  end.
(** How many functions are declared, bodies given and types defined. *)
Definition declared (d : sec) : Z := match d with SFunctions l => zlen l | _ => 0 end.
Definition given_bodies (d : sec) : Z := match d with SCode l => zlen l | _ => 0 end.
Definition group_size (r : p_rec) : Z := match g_group r with Some g => zlen g | None => 0 end.
Definition types_in (d : sec) : Z := match d with STypes l => sum (map group_size l) | _ => 0 end.

Definition q_sec (ft : features) (d : sec) : Prop :=
  match d with
  | STypes l => Forall q_rec l
  | SImports l => Forall (q_imports ft) l
  | STables l => Forall q_table_def l
  | SGlobals l => Forall q_global_def l
  | SElements l => Forall q_elem l
  | SData l => Forall (q_data ft) l
  | SCode l => Forall bytes_ok l
  | _ => True
  end.
Lemma as_read_q ft d : as_read ft d -> q_sec ft d.
Proof.
  destruct d; cbn [as_read q_sec]; auto; intros (off & bs & Hb & E);
    [apply (y_section_eq ft _ _ _ _ _ (y_q_rec ft) Hb E)|apply (y_section_eq ft _ _ _ _ _ (y_q_imports ft) Hb E)|apply (y_section_eq ft _ _ _ _ _ (y_q_table_def ft) Hb E)|apply (y_section_eq ft _ _ _ _ _ (y_q_global_def ft) Hb E)
    |apply (y_section_eq ft _ _ _ _ _ (y_q_elem ft) Hb E)|apply (y_section_eq ft _ _ _ _ _ (y_q_data ft) Hb E)].
Qed.

Lemma sum_sizes l : 0 <= sum (map group_size l).
Proof. induction l as [|r l IH]; cbn [map]; unfold sum in *; cbn [fold_right]; [lia|]. unfold group_size at 1. destruct (g_group r) as [g|]; [pose proof (zlen_nonneg g)|]; lia. Qed.

Section Top.
Variable F : feature -> bool.
Variable G : m_feature -> bool.
Variable ft : features.
Variable pos : Z.
Hypothesis Hpos : 0 < pos.

(** * Types *)
Section Types.
Variable k : Z.
Variable st0 : mstate.
Hypothesis Hfr : ms_frozen st0 = false.
Definition after (st : mstate) : Prop := exists h w, reached h w /\ zlen (st_types (w_store w)) <= 2 ^ 20 /\ st = with_world k st0 w.
Lemma q_types l : Forall q_rec l -> forall h w, reached h w -> zlen (st_types (w_store w)) + sum (map group_size l) <= 2 ^ 20 -> quiet after (each (add_types pos) (with_world k st0 w) l).
Proof.
  induction 1 as [|r l Hr Hl IH]; intros h w Rw Hn; cbn [each]; [exists h, w; split; [exact Rw|]; split; [unfold sum in Hn; cbn in Hn; lia|reflexivity]|].
  unfold q_rec in Hr. cbn [map] in Hn. unfold sum in Hn. cbn [fold_right] in Hn. fold (sum (map group_size l)) in Hn. unfold group_size at 1 in Hn. unfold add_types at 1, assert_mut. cbn [with_world with_mod with_store set_types ms_frozen ms_store ms_mod md_types]. rewrite Hfr.
  destruct (g_group r) as [g|]; [|congruence]. cbn [must obind]. pose proof (sum_sizes l) as S0.
  destruct (reached_inv h w Rw) as (gs & D & V & Fw). pose proof (scope_defined _ _ _ _ _ V (Fw k)) as Df.
  assert (L : zlen (st_types (w_store w)) + zlen g <= MAX_INDEX) by (unfold MAX_INDEX; lia).
  destruct (add_group_accepts _ _ _ (w_scope w k) g V Df L) as (St & _).
  destruct (add_group (w_store w) (w_scope w k) g) as [[s' ids']|msg| |] eqn:Ea; cbn [canon of_canon obind quiet]; try exact I; try (destruct St; fail).
  set (w1 := mkWorld s' (upd (w_scope w) k ids')).
  assert (R1 : reached (h ++ [AddGroup k g]) w1) by (apply (reached_app h _ w); [exact Rw|]; cbn [run step]; rewrite Ea; reflexivity).
  assert (E1 : w_scope w1 k = ids') by (cbn; unfold upd; rewrite Z.eqb_refl; reflexivity).
  assert (N1 : zlen (st_types s') <= zlen (st_types (w_store w)) + zlen g).
  { destruct (add_group_done _ _ _ _ _ _ _ V Df Ea) as (c & st & _ & _ & [[-> _]|(_ & _ & -> & _)]); [pose proof (zlen_nonneg g); lia|]. rewrite zlen_app. unfold placed, zlen. rewrite map_length. lia. }
  specialize (IH _ w1 R1). replace (with_mod _ _) with (with_world k st0 w1); [apply IH; cbn [w1 w_store]; lia|].
  unfold with_world. rewrite E1. reflexivity.
Qed.
End Types.

(** * The other sections *)
Section Held.
Variable s : store.
Variable ids : list Z.
Hypothesis HO : ordered (st_types s).
Hypothesis HS : st_super s = map s_super (st_types s).
Hypothesis HV : forall i t, is_type (st_types s) i t -> valid_type (st_types s) i t.
Hypothesis HN : zlen (st_types s) <= 2 ^ 20.
Hypothesis HI : Forall (defined (st_types s)) ids.
Notation J := (J s ids).
Definition state_ok (y : mstate * list (Z * list Z)) : Prop := (exists b n, J b n (fst y)) /\ Forall (f_ok s ids) (snd y).
Ltac keep := eapply quiet_bind; [|let st := fresh "st" in let H := fresh "H" in intros st H; cbn [quiet fst snd]; split; [exists false; split; [exact H|discriminate]|assumption]].
Lemma q_section n x d : J false n (fst x) -> Forall (f_ok s ids) (snd x) -> 1 < rank d -> q_sec ft d -> (rank d = 12 -> given_bodies d <= n) ->
  quiet (fun y => (exists b, J b (n + declared d) (fst y) /\ (b = true -> rank d = 12)) /\ Forall (f_ok s ids) (snd y)) (section F G ft pos x d).
Proof.
  intros H Hf Hr Hd Hb. unfold section. cbv zeta. destruct d; cbn [rank] in Hr; try lia; cbn [declared q_sec given_bodies] in *; rewrite ?Z.add_0_r; try (rewrite Forall_forall in Hd).
  - keep. apply q_counted; [|exact H]. intros st a Ha Hj. apply q_imports_; auto.
  - keep. unfold counted. eapply quiet_bind; [apply q_max|]. intros _ _. eapply quiet_bind; [eapply q_assert; exact H|]. intros _ _. apply q_functions; auto.
  - keep. apply q_counted; [|exact H]. intros st a Ha Hj. apply q_add_table; auto.
  - keep. apply q_counted; [|exact H]. intros st a Ha Hj. apply q_memory; auto.
  - eapply quiet_bind; [apply q_check|]. intros _ _. keep. apply q_counted; [|exact H]. intros st a Ha Hj. apply q_tag; auto.
  - keep. apply q_counted; [|exact H]. intros st a Ha Hj. apply q_add_global; auto.
  - keep. apply q_counted; [|exact H]. intros st a Ha Hj. apply q_export; auto.
  - keep. apply q_start; auto.
  - keep. apply q_counted; [|exact H]. intros st a Ha Hj. apply q_element; auto.
  - keep. eapply quiet_bind; [apply q_check|]. intros _ _. eapply quiet_bind; [eapply q_assert; exact H|]. intros _ _. cbn [quiet]. destruct H. constructor; assumption.
  - eapply quiet_bind; [eapply q_assert; exact H|]. intros _ _. eapply quiet_bind.
    + eapply (q_code_entries) with (s := s) (ids := ids) (n := n) (b := false); try assumption; try (apply Forall_forall; exact Hd); unfold next_code; rewrite (j_code _ _ _ _ _ H eq_refl); pose proof (j_imported _ _ _ _ _ H); pose proof (j_count _ _ _ _ _ H); specialize (Hb eq_refl); lia.
    + intros [st fs] [(b' & Hj) Hfs]. cbn [fst snd quiet] in *. split; [exists b'; split; [exact Hj|reflexivity]|apply Forall_app; auto].
  - keep. eapply quiet_bind; [apply q_max|]. intros _ _. apply quiet_each; [|exact H]. intros st a Ha Hj. apply q_add_data; auto.
Qed.
Lemma last_sections l : in_order 13 l -> l = [].
Proof. destruct l as [|d l]; [reflexivity|]. cbn [in_order]. intros [H _]. destruct d; cbn [rank] in H; lia. Qed.
Lemma q_data_sections l : in_order 12 l -> Forall (q_sec ft) l -> forall b n x, J b n (fst x) -> Forall (f_ok s ids) (snd x) -> quiet state_ok (each (section F G ft pos) x l).
Proof.
  destruct l as [|d l]; intros Ho Hq b n x H Hf; cbn [each]; [split; [exists b, n; exact H|exact Hf]|]. cbn [in_order] in Ho. destruct Ho as [Hd Ho]. inversion Hq as [|? ? Hqd Hql]; subst.
  destruct d as [| | | | | | | | | | | |l0]; cbn [rank] in Hd, Ho; try lia. rewrite (last_sections l Ho). cbn [each section q_sec] in *. cbv zeta. eapply quiet_bind; [|intros y Hy; exact Hy].
  eapply (quiet_bind (J b n)); [|intros st Hst; split; [exists b, n; exact Hst|exact Hf]]. eapply quiet_bind; [apply q_max|]. intros _ _.
  rewrite Forall_forall in Hqd. apply quiet_each; [|exact H]. intros st a Ha Hj. apply q_add_data; auto.
Qed.
Lemma late_functions l : forall k, 12 <= k -> in_order k l -> sum (map declared l) = 0.
Proof.
  induction l as [|d l IH]; intros k Hk Ho; [reflexivity|]. destruct Ho as [H1 H2]. cbn [map]. unfold sum in *. cbn [fold_right]. rewrite (IH (rank d)); [|lia|exact H2]. destruct d; cbn [rank declared] in *; lia.
Qed.
Lemma bodies_pos l : 0 <= sum (map given_bodies l).
Proof. induction l as [|d l IH]; cbn [map]; unfold sum in *; cbn [fold_right]; [lia|]. unfold given_bodies at 1. destruct d; try lia. pose proof (zlen_nonneg bodies). lia. Qed.
Lemma q_sections l : forall k n x, 1 <= k -> in_order k l -> Forall (q_sec ft) l -> J false n (fst x) -> Forall (f_ok s ids) (snd x) ->
  sum (map given_bodies l) <= n + sum (map declared l) -> quiet state_ok (each (section F G ft pos) x l).
Proof.
  induction l as [|d l IH]; intros k n x Hk Ho Hq H Hf Hs; cbn [each]; [split; [exists false, n; exact H|exact Hf]|]. cbn [in_order] in Ho. destruct Ho as [Hd Ho]. inversion Hq as [|? ? Hqd Hql]; subst.
  cbn [map] in Hs. unfold sum in Hs. cbn [fold_right] in Hs. fold (sum (map given_bodies l)) (sum (map declared l)) in Hs. pose proof (bodies_pos l) as B0.
  assert (Hb : rank d = 12 -> given_bodies d <= n).
  { intros E. rewrite (late_functions l (rank d)) in Hs; [|lia|exact Ho]. destruct d; cbn [rank declared] in *; lia. }
  eapply quiet_bind; [apply (q_section n); [exact H|exact Hf|lia|exact Hqd|exact Hb]|]. intros y [(b & Hj & Hr) Hfy]. destruct b.
  - specialize (Hr eq_refl). rewrite Hr in Ho. eapply q_data_sections; eauto.
  - apply (IH (rank d) (n + declared d)); auto; [lia|]. assert (0 <= given_bodies d) by (destruct d; cbn [given_bodies]; try lia; apply zlen_nonneg). lia.
Qed.
Lemma q_bodies y : state_ok y -> each (fun _ f => body F ft pos (fst y) f) tt (snd y) <> Panicked.
Proof.
  intros [(b & n & H) Hf]. apply (quiet_not whatever). rewrite Forall_forall in Hf. apply quiet_each; [|exact I]. intros u f Hin _. eapply q_body with (s := s) (ids := ids) (b := b) (n := n); auto.
Qed.
End Held.
Lemma module_quiet h w k secs : reached h w -> w_scope w k = [] -> zlen (st_types (w_store w)) + sum (map types_in secs) <= 2 ^ 20 ->
  in_order 0 secs -> Forall (as_read ft) secs -> sum (map given_bodies secs) <= sum (map declared secs) -> validate_module F G ft pos (w_store w) secs <> Panicked.
Proof.
  intros Rw Hk Hn Ho Hr Hb. assert (Hq : Forall (q_sec ft) secs) by (eapply Forall_impl; [|exact Hr]; apply as_read_q).
  assert (Main : forall l st, 1 <= 1 -> in_order 1 l -> Forall (q_sec ft) l -> sum (map given_bodies l) <= sum (map declared l) -> after k (new_mstate (w_store w)) st ->
    obind (each (section F G ft pos) (st, []) l) (fun '(st, fs) => each (fun _ f => body F ft pos st f) tt fs) <> Panicked).
  { intros l st _ Hol Hql Hbl (h' & w' & R' & N' & ->). destruct (reached_inv h' w' R') as (gs & D & V & Fw). pose proof (scope_defined _ _ _ _ _ V (Fw k)) as Df.
    pose proof (built_ordered _ _ _ _ _ (i_built _ _ _ V)) as HO.
    pose proof (q_sections (w_store w') (w_scope w' k) HO (i_super _ _ _ V) (i_valid _ _ _ V) N' Df l 1 0 (with_world k (new_mstate (w_store w)) w', []) ltac:(lia) Hol Hql) as Q.
    assert (J0 : J (w_store w') (w_scope w' k) false 0 (with_world k (new_mstate (w_store w)) w')) by (constructor; cbn; auto; try constructor; lia).
    specialize (Q J0 (Forall_nil _) ltac:(lia)).
    destruct (each (section F G ft pos) _ l) as [[st fs]|e|]; cbn [obind quiet] in *; [|discriminate|destruct Q].
    refine (q_bodies (w_store w') (w_scope w' k) _ _ _ _ (st, fs) Q); first [exact HO|exact (i_valid _ _ _ V)|exact N'|exact Df]. }
  assert (E0 : new_mstate (w_store w) = with_world k (new_mstate (w_store w)) w) by (unfold with_world; rewrite Hk; reflexivity).
  unfold validate_module. destruct secs as [|d l].
  - refine (Main [] _ (Z.le_refl 1) I (Forall_nil _) (Z.le_refl 0) _). exists h, w. split; [exact Rw|]. split; [unfold sum in Hn; cbn in Hn; lia|exact E0].
  - cbn [in_order] in Ho. destruct Ho as [H0 Ho]. destruct (Z.eq_dec (rank d) 1) as [E1|N1].
    + destruct d as [l0| | | | | | | | | | | |]; cbn [rank] in E1; try lia. inversion Hq as [|? ? Hqd Hql]; subst. cbn [each section q_sec] in *. cbv zeta.
      cbn [map] in Hn, Hb. unfold sum in Hn, Hb. cbn [fold_right types_in given_bodies declared] in Hn, Hb.
      assert (T0 : forall k l, 1 <= k -> in_order k l -> fold_right Z.add 0 (map types_in l) = 0).
      { clear. intros k l. revert k. induction l as [|d l IH]; intros k Hk Ho; [reflexivity|]. destruct Ho as [A B]. cbn [map fold_right]. rewrite (IH (rank d)); [|lia|exact B]. destruct d; cbn [rank types_in] in *; lia. }
      rewrite (T0 1 l) in Hn; [|lia|exact Ho].
      cbn [fst snd]. unfold counted. destruct (check_max _ _ _ _ _) eqn:Em; cbn [obind]; [|discriminate|unfold check_max, check in Em; destruct (_ && _); discriminate].
      cbn [assert_mut new_mstate ms_frozen obind].
      pose proof (q_types k (new_mstate (w_store w)) eq_refl l0 Hqd h w Rw ltac:(lia)) as Q. rewrite <- E0 in Q.
      destruct (each (add_types pos) (new_mstate (w_store w)) l0) as [st|e|]; cbn [obind quiet] in *; [|discriminate|destruct Q].
      apply Main; [lia|exact Ho|exact Hql|unfold sum; lia|exact Q].
    + refine (Main (d :: l) _ (Z.le_refl 1) _ Hq Hb _); [split; [|exact Ho]; destruct d; cbn [rank] in *; lia|]. exists h, w. split; [exact Rw|]. split; [|exact E0].
      assert (0 <= sum (map types_in (d :: l))); [|lia]. clear. induction (d :: l) as [|a m IH]; [unfold sum; cbn; lia|]. cbn [map]. unfold sum in *. cbn [fold_right]. assert (0 <= types_in a) by (destruct a; cbn [types_in]; try lia; apply sum_sizes). lia.
Qed.
End Top.
