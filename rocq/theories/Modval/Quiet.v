(** Sections of a module that do not panic. *)
From Verif.Base Require Import Prelude.
From Verif.Reader Require Import Model Spec.
From Verif.Codec Require Import Kit.
From Verif.Types Require Import RefModel CodecModel EntityModel CanonModel CanonSpec CanonLemmas CanonSub CanonTop.
From Verif.Instr Require Import ImmModel ImmSpec ImmProofs Ops Imms Den InstrProofs BodyModel BodyProofs HonestInstr.
From Verif.Instr Require Visit.
From Verif.Sections Require Import SegModel Item.
From Verif.Locals Require Import Model Proofs.
From Verif.Validator Require Import State Checks Visit Api Body Module TypeFunc Calm CalmOps CalmControl CalmBody CalmModule.
From Verif.Modval Require Import Model QuietRead QuietData.

(** No panic, and a result as [P] says. *)
Definition quiet {A} (P : A -> Prop) (x : outcome A) : Prop := match x with Done a => P a | Rejected _ => True | Panicked => False end.
Definition whatever {A} : A -> Prop := fun _ => True.
Lemma quiet_bind {A B} (Q : A -> Prop) (P : B -> Prop) (x : outcome A) f : quiet Q x -> (forall a, Q a -> quiet P (f a)) -> quiet P (obind x f).
Proof. destruct x; cbn; auto. Qed.
Lemma quiet_weaken {A} (Q P : A -> Prop) (x : outcome A) : quiet Q x -> (forall a, Q a -> P a) -> quiet P x.
Proof. destruct x; cbn; auto. Qed.
Lemma quiet_each {A S} (P : S -> Prop) (f : S -> A -> outcome S) l : (forall s a, In a l -> P s -> quiet P (f s a)) -> forall s, P s -> quiet P (each f s l).
Proof.
  induction l as [|a l IH]; intros H s Hs; cbn [each]; [exact Hs|]. eapply quiet_bind; [apply H; [left; reflexivity|exact Hs]|].
  intros s' Hs'. apply IH; [|exact Hs']. intros s0 b Hb. apply H. right. exact Hb.
Qed.
Lemma quiet_read {A} (x : res A) : quiet (fun a => x = Ok a) (of_read x). Proof. destruct x; cbn; auto. Qed.
Lemma quiet_not {A} (P : A -> Prop) (x : outcome A) : quiet P x -> x <> Panicked. Proof. destruct x; cbn; congruence. Qed.

Section Quiet.
Variable F : feature -> bool.
Variable G : m_feature -> bool.
Variable ft : features.
Variable pos : Z.
Hypothesis Hpos : 0 < pos.
Variable s : store.
Let T := st_types s.
Hypothesis HO : ordered T.
Hypothesis HS : st_super s = map s_super T.
Hypothesis HV : forall i t, is_type T i t -> valid_type T i t.
Hypothesis HN : zlen T <= 2 ^ 20.
Variable ids : list Z.
Hypothesis HI : Forall (defined T) ids.

(** * Answers *)
Definition kid (u : uidx) : Prop := exists id, u = UId id /\ defined T id.
Definition kh (h : hp) : Prop := match h with HA _ _ => True | HC u | HX u => kid u end.
Definition kv (v : val) : Prop := match v with VRef r => kh (rt_heap r) | _ => True end.
Lemma at_id id : defined T id -> exists t, nthz T id = Some t.
Proof. intros D. destruct (nthz T id) as [t|] eqn:E; [eauto|]. exfalso. apply nthz_none in E. exact (E D). Qed.
Lemma id_at id t : nthz T id = Some t -> defined T id.
Proof. intros H. destruct (Z.ltb_spec id 0); [exfalso|]; [|destruct (Z.ltb_spec id (zlen T))]; [|unfold defined; lia|]; assert (N : nthz T id <> None) by congruence; exfalso; apply N; apply nthz_none; unfold defined; lia. Qed.
Section Mod.
Variable m : modul.
Hypothesis Hm : md_types m = ids.
Notation R := (module_resources s m).
Lemma msane : sane R.
Proof. apply module_sane; [exact HO|exact HV| |exact HN]. rewrite Hm. exact HI. Qed.
Lemma kid_known u : kid u <-> known_id R u.
Proof.
  unfold kid, known_id. cbn [module_resources r_sub_type_at_id]. unfold stored. fold T. split.
  - intros (id & -> & D). destruct (at_id id D) as (t & Et). exists id, (m_sub UId t). rewrite Et. auto.
  - intros (id & t & -> & E). exists id. split; [reflexivity|]. destruct (nthz T id) as [t'|] eqn:Et; [|discriminate]. exact (id_at _ _ Et).
Qed.
Lemma kh_known h : kh h <-> known_heap R h. Proof. destruct h; cbn [kh known_heap]; [tauto|apply kid_known|apply kid_known]. Qed.
Lemma kv_known v : kv v <-> known_val R v. Proof. destruct v; cbn [kv known_val]; try tauto. apply kh_known. Qed.
Lemma start_calm t : kv t -> K (mkEnv R F pos) (new_const_expr t).
Proof.
  intros Ht. split; [|discriminate]. constructor; cbn.
  - repeat split; lia.
  - reflexivity.
  - constructor; [|constructor]. cbn. apply kv_known, Ht.
  - exists []. split; [apply stands_empty|cbn; lia].
Qed.
Lemma quiet_ask {A} (Q : A -> Prop) (x : V A) : calm (mkEnv R F pos) Q x -> quiet Q (ask x).
Proof. intros H. specialize (H (new_const_expr VI32) (start_calm VI32 I)). unfold ask. destruct (x _); cbn; [apply H|exact I|exact H]. Qed.
Lemma q_check_ref r : quiet (fun r => kh (rt_heap r)) (check_ref F pos s m r).
Proof.
  unfold check_ref, here. eapply quiet_weaken; [apply quiet_ask|].
  - eapply (calm_bind (mkEnv R F pos) any); [apply calm_feature_ref|]. intros _ _. apply calm_check_ref. exact msane.
  - intros a Ha. apply kh_known. exact Ha.
Qed.
Lemma q_check_value v : quiet kv (check_value F pos s m v).
Proof. unfold check_value, here. eapply quiet_weaken; [apply quiet_ask; apply calm_check_value; exact msane|]. intros a Ha. apply kv_known. exact Ha. Qed.
Lemma q_check b msg : quiet whatever (check pos b msg). Proof. unfold check. destruct b; exact I. Qed.
Lemma type_of_settled u : kid u -> exists t, type_of s u = CanonModel.Done t.
Proof. intros (id & -> & D). destruct (at_id id D) as (t & Et). exists t. unfold type_of. cbn [core_id CanonModel.obind]. unfold type_at. fold T. rewrite Et. reflexivity. Qed.
Lemma q_shared r : kh (rt_heap r) -> quiet whatever (canon pos (rf_is_shared s r)).
Proof. intros H. unfold rf_is_shared. destruct (rt_heap r) as [sh t|u|u]; [exact I|..]; destruct (type_of_settled u H) as (t & ->); exact I. Qed.
Lemma q_sub a b : kh (rt_heap a) -> kh (rt_heap b) -> quiet whatever (canon pos (rf_is_subtype s a b)).
Proof.
  intros Ha Hb. unfold rf_is_subtype. destruct (rty_dec _ _ _); [exact I|]. destruct (_ && _); [exact I|]. destruct (heap_dec _ _ _); [exact I|].
  assert (X : forall i j, defined T i -> quiet whatever (canon pos (id_is_subtype s i j))).
  { intros i j D. destruct (id_decides T s eq_refl HS HO i j D) as (x & -> & _). exact I. }
  destruct (rt_heap a) as [sa ta|i|i], (rt_heap b) as [sb tb|j|j]; cbn [kh] in *; try exact I.
  1,2: destruct (type_of_settled j Hb) as (t & ->); cbn [CanonModel.obind]; cbv zeta; destruct (negb _); exact I.
  1,3: destruct (type_of_settled i Ha) as (t & ->); cbn [CanonModel.obind]; cbv zeta; destruct (negb _); exact I.
  all: destruct Ha as (x & -> & Dx), Hb as (y & -> & Dy); cbn [core_id CanonModel.obind]; first [apply X; exact Dx|exact I].
Qed.
(** * Entities *)
Definition func_of (id : Z) : Prop := exists t ps rs, nthz T id = Some t /\ c_inner (s_comp t) = IFunc ps rs.
Definition func_idx (i : Z) : Prop := exists id, nthz ids i = Some id /\ func_of id.
Lemma q_func_type i : quiet (fun _ => func_idx i) (func_type pos s m i).
Proof.
  unfold func_type, Model.id_at. rewrite Hm. destruct (nthz ids i) as [id|] eqn:E; cbn [obind fail quiet]; [|exact I]. fold T.
  rewrite Forall_forall in HI. destruct (at_id id (HI id (nthz_In _ _ _ E))) as (t & Et). rewrite Et. destruct (c_inner (s_comp t)) as [ps rs| | |] eqn:Ec; try exact I.
  exists id. split; [exact E|]. exists t, ps, rs. auto.
Qed.
Lemma q_limits a b : quiet whatever (check_limits pos a b). Proof. unfold check_limits. destruct b; [apply q_check|exact I]. Qed.
Lemma q_at_most a b c msg : quiet whatever (at_most pos a b c msg).
Proof. unfold at_most. eapply quiet_bind; [apply q_check|]. intros _ _. destruct b; [apply q_check|exact I]. Qed.
Lemma q_if {A} (P : A -> Prop) (b : bool) x y : quiet P x -> quiet P y -> quiet P (if b then x else y). Proof. destruct b; auto. Qed.
Lemma q_tt : quiet whatever (Done tt). Proof. exact I. Qed.
Ltac plain := repeat first [apply q_check|apply q_limits|apply q_at_most|apply q_tt|apply q_if].
Lemma q_check_table t : q_table t -> quiet (fun t => kh (rt_heap (tb_elem t))) (check_table F G pos s m t).
Proof.
  intros H. unfold check_table. unfold q_table in H. destruct (of_ref (t_elem t)) as [r|]; [|congruence].
  eapply (quiet_bind (fun r => kh (rt_heap r))).
  { destruct (rty_dec _ _ _) as [->|]; [exact I|apply q_check_ref]. }
  intros r' Hr. eapply quiet_bind; [apply q_limits|]. intros _ _. eapply quiet_bind; [apply q_if; [apply q_check|apply q_tt]|]. intros _ _.
  eapply quiet_bind; [apply q_if; [apply q_check|apply q_tt]|]. intros _ _. eapply quiet_bind; [apply q_at_most|]. intros _ _.
  eapply quiet_bind; [apply q_if; [|apply q_tt]|]. { eapply quiet_bind; [apply q_shared; exact Hr|]. intros; apply q_check. }
  intros _ _. exact Hr.
Qed.
Lemma q_check_memory t : quiet whatever (check_memory F G pos t).
Proof.
  unfold check_memory. eapply quiet_bind; [apply q_limits|]. intros _ _. eapply quiet_bind; [apply q_if; [apply q_check|apply q_tt]|]. intros _ _.
  eapply quiet_bind; [apply q_if; [apply q_check|apply q_tt]|]. intros _ _. eapply (quiet_bind whatever).
  { destruct (m_page t); [|exact I]. eapply quiet_bind; [apply q_check|]. intros _ _. eapply quiet_bind; [apply q_check|]. intros _ _. exact I. }
  intros p _. eapply quiet_bind; [apply q_at_most|]. intros _ _. eapply quiet_bind; [apply q_if; [apply q_check|apply q_tt]|]. intros _ _. exact I.
Qed.
Lemma q_check_tag i : quiet (fun _ => func_idx i) (check_tag F pos s m i).
Proof.
  unfold check_tag. eapply quiet_bind; [apply q_check|]. intros _ _. eapply quiet_bind; [apply q_func_type|]. intros [ps rs] H.
  destruct rs; [exact H|]. eapply quiet_weaken; [apply q_check|]. intros _ _. exact H.
Qed.
Lemma q_check_global t : q_global t -> quiet (fun g => kv (gl_ty g)) (check_global F pos s m t).
Proof.
  intros H. unfold check_global. unfold q_global in H. destruct (of_val _) as [v|]; [|congruence]. eapply quiet_bind; [apply q_check_value|]. intros v' Hv.
  eapply quiet_bind; [apply q_if; [apply q_check|apply q_tt]|]. intros _ _. eapply quiet_bind; [apply q_if; [|apply q_tt]|].
  { eapply (quiet_bind whatever); [|intros; apply q_check]. unfold val_is_shared. destruct v'; try exact I. apply q_shared. exact Hv. }
  intros _ _. exact Hv.
Qed.
End Mod.

(** * States *)
(** [b]: the module is shared.  [n]: the number of functions declared so far. *)
Record J (b : bool) (n : Z) (st : mstate) : Prop := mkJ
  { j_store : ms_store st = s; j_types : md_types (ms_mod st) = ids; j_frozen : ms_frozen st = b;
    j_functions : Forall func_idx (md_functions (ms_mod st)); j_tags : Forall func_of (md_tags (ms_mod st));
    j_tables : Forall (fun t => kh (rt_heap (tb_elem t))) (md_tables (ms_mod st));
    j_count : zlen (md_functions (ms_mod st)) = md_imported (ms_mod st) + n; j_imported : 0 <= md_imported (ms_mod st);
    j_code : b = false -> ms_code st = None }.
Ltac jcbn := cbn [ms_store ms_mod ms_frozen ms_code with_mod with_store with_imported with_exports with_size with_code add_reference set_functions set_tables set_memories set_globals set_tags set_elements set_data_count set_references set_imported
  md_types md_functions md_tables md_memories md_globals md_tags md_elements md_data_count md_references md_imported md_exact_imports].
Ltac jok H := constructor; jcbn; try apply H.
Lemma one {A} (P : A -> Prop) l a : Forall P l -> P a -> Forall P (l ++ [a]). Proof. intros. apply Forall_app. auto. Qed.
Lemma q_assert st n : J false n st -> quiet whatever (assert_mut st). Proof. intros H. unfold assert_mut. rewrite (j_frozen _ _ _ H). exact I. Qed.
Lemma J_reference b n st i : J b n st -> J b n (add_reference st i). Proof. intros H. jok H. Qed.

(** * Constant expressions *)
Definition Jc (b : bool) (n : Z) (x : mstate * bool) : Prop := J b n (fst x) /\ (b = false -> snd x = false).
Lemma q_before b n o x : Jc b n x -> quiet (Jc b n) (const_before F G pos o x).
Proof.
  intros H. destruct o; cbn [const_before]; try exact I; try exact H; try (eapply quiet_bind; [apply q_check|intros _ _; exact H]).
  - eapply (quiet_bind whatever); [|intros _ _; exact H]. unfold const_global. destruct (nthz _ _); [|exact I]. eapply quiet_bind; [apply q_if; [apply q_check|apply q_tt]|]. intros; apply q_check.
  - unfold insert_ref. destruct H as [H1 H2]. rewrite (j_frozen _ _ _ H1). destruct b; cbn [quiet]; split; cbn [fst snd]; [exact H1|discriminate|apply J_reference; exact H1|exact H2].
Qed.
Lemma calm_same m m' v : calm_state (module_resources s m) v -> calm_state (module_resources s m') v.
Proof. intros [A B C D]. constructor; [exact A|exact B|exact C|exact D]. Qed.
Lemma q_loop b n fuel : forall r v x, good r -> calm_state (module_resources s empty_modul) v -> Jc b n x -> quiet (Jc b n) (const_loop F G pos fuel r v x).
Proof.
  induction fuel as [|k IH]; intros r v x Hg Hv Hx; cbn [const_loop]; (destruct (eof r); [exact Hx|]); [exact I|].
  destruct (Verif.Instr.Visit.visit_operator (current_frame v) r) as [[o r1]|e] eqn:Er; cbn [of_read obind]; [|exact I].
  assert (Hg1 : good r1) by (eapply honest_good; [apply (honest_operator (current_frame v))|exact Er|exact Hg]).
  eapply quiet_bind; [apply q_before; exact Hx|]. intros x1 Hx1.
  unfold current_frame in Er. destruct (vs_control v) as [|fr c] eqn:Ec; [discriminate|].
  destruct Hg as [B P]. destruct (y_instr (r_feat r) (fr_kind fr) r o r1 eq_refl B Er) as (Hret & _). destruct (returned _ _ _ Hret) as [Hp Hr].
  rewrite (j_store _ _ _ (proj1 Hx1)). set (R := module_resources s (ms_mod (fst x1))).
  assert (HR : sane R) by (apply msane; exact (j_types _ _ _ (proj1 Hx1))).
  assert (Hat : e_at (mkEnv R F (original_position r)) <> 0) by (cbn; lia).
  assert (HK : Kc (mkEnv R F (original_position r)) (fr :: c) v) by (split; [split; [exact (calm_same _ _ _ Hv)|rewrite Ec; discriminate]|exact Ec]).
  pose proof (t_visit (mkEnv R F (original_position r)) HR Hat fr c o Hp Hr v HK) as H.
  destruct (op (mkEnv R F (original_position r)) o v) as [[] v1|e v1|]; cbn [of_visit obind]; [|exact I|destruct H]. apply IH; [assumption|exact (calm_same _ _ _ H)|exact Hx1].
Qed.
Lemma q_const n st b t : J false n st -> bytes_ok b -> kv t -> quiet (J false n) (check_const F G ft pos st b t).
Proof.
  intros H Hb Ht. unfold check_const. eapply quiet_bind.
  - apply (q_loop false n); [split; [exact Hb|unfold original_position, new_reader; cbn [r_off r_pos]; lia]| |split; [exact H|intros _; reflexivity]].
    exact (proj1 (start_calm empty_modul t Ht)).
  - intros [st' m] [H1 H2]. cbn [fst snd] in *. rewrite (H2 eq_refl). exact H1.
Qed.

Lemma q_const_data b n st e t : J b n st -> q_offset ft e -> numeric t -> quiet (J b n) (check_const F G ft pos st e t).
Proof.
  intros H [He Hd] Ht. unfold check_const.
  assert (Q : quiet (Jc b n) (const_loop F G pos (List.length e) (new_reader ft e pos) (new_const_expr t) (st, false))).
  { apply q_loop; [split; [exact He|unfold original_position, new_reader; cbn [r_off r_pos]; lia]| |split; [exact H|intros _; reflexivity]].
    refine (proj1 (start_calm empty_modul t _)). destruct t; [exact I..|destruct Ht]. }
  destruct (const_loop F G pos (List.length e) (new_reader ft e pos) (new_const_expr t) (st, false)) as [[st' m]|err|] eqn:El; cbn [quiet obind] in *; [|exact I|exact Q].
  destruct Q as [Q1 Q2]. cbn [fst snd] in *. assert (m = false) as ->; [|exact Q1]. destruct b; [|exact (Q2 eq_refl)].
  exact (frozen_const F G pos ft st e t _ Ht Hpos He (Hd pos) (j_frozen _ _ _ H) El).
Qed.

(** * Items *)
Lemma q_max a b c d : quiet whatever (check_max pos a b c d). Proof. apply q_check. Qed.
Lemma q_combine a b : quiet whatever (combine pos a b). Proof. unfold combine. destruct (_ <? _); exact I. Qed.
Lemma q_sized n st a b c d e : J false n st -> quiet (J false n) (obind (check_max pos a b c d) (fun _ => obind (combine pos (ms_size st) e) (fun k => Done (with_size st k)))).
Proof. intros H. eapply quiet_bind; [apply q_max|]. intros _ _. eapply quiet_bind; [apply q_combine|]. intros k _. cbn [quiet]. jok H. Qed.
Lemma q_import n st e : J false n st -> q_entity e -> quiet (J false n) (add_import F G pos st e).
Proof.
  intros H He. unfold add_import. cbv zeta. rewrite (j_store _ _ _ H). pose proof (j_types _ _ _ H) as Hm.
  destruct e as [i|t|t|t|i|i]; cbn [q_entity] in He.
  - eapply quiet_bind; [apply q_func_type; exact Hm|]. intros ty Hi. apply q_sized. jok H; [apply one; [apply H|exact Hi]|rewrite zlen_app; change (zlen [i]) with 1; pose proof (j_count _ _ _ H); lia|pose proof (j_imported _ _ _ H); lia].
  - eapply quiet_bind; [apply q_check_table; assumption|]. intros ty Hi. apply q_sized. jok H. apply one; [apply H|exact Hi].
  - eapply quiet_bind; [apply q_check_memory|]. intros ty Hi. apply q_sized. jok H.
  - eapply quiet_bind; [apply q_check_global; assumption|]. intros ty Hi. eapply quiet_bind; [apply q_if; [apply q_check|apply q_tt]|]. intros _ _. apply q_sized. jok H.
  - eapply quiet_bind; [apply q_check_tag; assumption|]. intros tt0 (id & Ei & Fi). rewrite Hm, Ei. cbn [must obind]. eapply quiet_bind; [apply q_func_type; exact Hm|]. intros ty _. apply q_sized. jok H. apply one; [apply H|exact Fi].
  - eapply quiet_bind; [apply q_func_type; exact Hm|]. intros ty Hi. apply q_sized. jok H; [apply one; [apply H|exact Hi]|rewrite zlen_app; change (zlen [i]) with 1; pose proof (j_count _ _ _ H); lia|pose proof (j_imported _ _ _ H); lia].
Qed.
Lemma q_imports_ n st i : J false n st -> q_imports ft i -> quiet (J false n) (add_imports F G ft pos st i).
Proof.
  intros H Hi. unfold add_imports. eapply quiet_bind; [eapply q_assert; exact H|]. intros _ _. eapply quiet_bind; [apply quiet_read|]. intros l El.
  specialize (Hi pos l El). rewrite Forall_forall in Hi. apply quiet_each; [|exact H]. intros st' x Hx H'. apply q_import; [exact H'|apply Hi; exact Hx].
Qed.
Lemma q_function n st i : J false n st -> quiet (J false (n + 1)) (add_function pos st i).
Proof.
  intros H. unfold add_function. eapply quiet_bind; [eapply q_assert; exact H|]. intros _ _. rewrite (j_store _ _ _ H). eapply quiet_bind; [apply q_func_type; exact (j_types _ _ _ H)|].
  intros ty Hi. cbn [quiet]. jok H; [apply one; [apply H|exact Hi]|]. rewrite zlen_app. change (zlen [i]) with 1. pose proof (j_count _ _ _ H). lia.
Qed.
Lemma q_functions l : forall n st, J false n st -> quiet (J false (n + zlen l)) (each (add_function pos) st l).
Proof.
  induction l as [|i l IH]; intros n st H; cbn [each]; [change (zlen (@nil Z)) with 0; rewrite Z.add_0_r; exact H|].
  eapply quiet_bind; [apply q_function; exact H|]. intros st' H'. rewrite zlen_cons. replace (n + (1 + zlen l)) with (n + 1 + zlen l) by lia. apply IH. exact H'.
Qed.
Lemma q_memory n st t : J false n st -> quiet (J false n) (add_memory F G pos st t).
Proof. intros H. unfold add_memory. eapply quiet_bind; [eapply q_assert; exact H|]. intros _ _. eapply quiet_bind; [apply q_check_memory|]. intros x _. cbn [quiet]. jok H. Qed.
Lemma q_tag n st i : J false n st -> quiet (J false n) (add_tag F pos st i).
Proof.
  intros H. unfold add_tag. eapply quiet_bind; [eapply q_assert; exact H|]. intros _ _. rewrite (j_store _ _ _ H). pose proof (j_types _ _ _ H) as Hm. eapply quiet_bind; [apply q_check_tag; exact Hm|].
  intros tt0 (id & Ei & Fi). rewrite Hm, Ei. cbn [must obind quiet]. jok H. apply one; [apply H|exact Fi].
Qed.
Lemma q_add_table n st d : J false n st -> q_table_def d -> quiet (J false n) (add_table F G ft pos st d).
Proof.
  intros H [H1 H2]. unfold add_table. rewrite (j_store _ _ _ H). eapply quiet_bind; [apply q_check_table; [exact (j_types _ _ _ H)|exact H1]|]. intros t Ht. eapply (quiet_bind (J false n)).
  - destruct (ptd_init d) as [e|]; eapply quiet_bind; try apply q_check; intros _ _; [apply q_const; assumption|exact H].
  - intros st' H'. eapply quiet_bind; [eapply q_assert; exact H'|]. intros _ _. cbn [quiet]. jok H'. apply one; [apply H'|exact Ht].
Qed.
Lemma q_add_global n st d : J false n st -> q_global_def d -> quiet (J false n) (add_global F G ft pos st d).
Proof.
  intros H [H1 H2]. unfold add_global. rewrite (j_store _ _ _ H). eapply quiet_bind; [apply q_check_global; [exact (j_types _ _ _ H)|exact H1]|]. intros t Ht. eapply quiet_bind; [apply q_const; [exact H|exact H2|exact Ht]|].
  intros st' H'. eapply quiet_bind; [eapply q_assert; exact H'|]. intros _ _. cbn [quiet]. jok H'.
Qed.
Lemma q_in_bounds {A} i (l : list A) (P : A -> Prop) : Forall P l -> quiet P (in_bounds pos i l).
Proof. intros H. unfold in_bounds. destruct (nthz l i) as [a|] eqn:E; [|exact I]. cbn. rewrite Forall_forall in H. apply H. eapply nthz_In; exact E. Qed.
Lemma all_whatever {A} (l : list A) : Forall whatever l. Proof. apply Forall_forall. intros; exact I. Qed.
Lemma q_entity_ n st k i : J false n st -> quiet (fun y => J false n (fst (fst y))) (export_entity pos st k i).
Proof.
  intros H. unfold export_entity. cbv zeta. rewrite (j_store _ _ _ H), (j_types _ _ _ H). destruct k.
  1,6: (eapply quiet_bind; [apply (q_in_bounds _ _ func_idx); apply H|]; intros t (id & Ei & u & ps & rs & Eu & Ec); rewrite Ei; cbn [must obind]; fold T; rewrite Eu; cbn [must obind]; rewrite Ec; cbn [quiet fst]; apply J_reference; exact H).
  1-3: (eapply quiet_bind; [apply (q_in_bounds _ _ whatever); apply all_whatever|]; intros ? _; exact H).
  eapply quiet_bind; [apply (q_in_bounds _ _ func_of); apply H|]. intros id (u & ps & rs & Eu & Ec). fold T. rewrite Eu. cbn [must obind]. rewrite Ec. exact H.
Qed.
Lemma q_export n st x : J false n st -> quiet (J false n) (add_export G pos st x).
Proof.
  intros H. unfold add_export. eapply quiet_bind; [eapply q_assert; exact H|]. intros _ _. eapply quiet_bind; [apply q_entity_; exact H|]. intros [[st' k] b] H'. cbn [fst] in H'.
  eapply quiet_bind; [apply q_if; [apply q_check|apply q_tt]|]. intros _ _. eapply quiet_bind; [apply q_combine|]. intros k' _. destruct (existsb _ _); [exact I|]. cbn [quiet]. jok H'.
Qed.
Lemma q_get_func_type n st f : J false n st -> quiet whatever (get_func_type pos s (ms_mod st) f).
Proof. intros H. unfold get_func_type. destruct (nthz _ _); [|exact I]. eapply quiet_weaken; [apply q_func_type; exact (j_types _ _ _ H)|]. intros; exact I. Qed.
Lemma q_start n st f : J false n st -> quiet (J false n) (start pos st f).
Proof. intros H. unfold start. rewrite (j_store _ _ _ H). eapply quiet_bind; [eapply q_get_func_type; exact H|]. intros [ps rs] _. destruct ps, rs; first [exact H|exact I]. Qed.
Lemma q_elem_func n st f : J false n st -> quiet (J false n) (elem_func pos st f).
Proof. intros H. unfold elem_func. rewrite (j_store _ _ _ H). eapply quiet_bind; [eapply q_get_func_type; exact H|]. intros _ _. eapply quiet_bind; [eapply q_assert; exact H|]. intros _ _. apply J_reference. exact H. Qed.
Lemma q_element n st e : J false n st -> q_elem e -> quiet (J false n) (add_element F G ft pos st e).
Proof.
  intros H [H1 H2]. unfold add_element. cbv zeta. rewrite (j_store _ _ _ H). eapply (quiet_bind (fun r => kh (rt_heap r))).
  { destruct (pe_items e) as [|ty b]; [exact I|]. destruct H2 as [H2 _]. destruct (of_ref ty) as [r|]; [|congruence]. apply q_check_ref. exact (j_types _ _ _ H). }
  intros ty Hty. eapply (quiet_bind (J false n)).
  { destruct (pe_kind e) as [|i b|]; try (eapply quiet_bind; [apply q_check|intros _ _; exact H]).
    unfold table_at. destruct (nthz _ _) as [t|] eqn:Et; cbn [obind fail quiet]; [|exact I].
    assert (Kt : kh (rt_heap (tb_elem t))) by (pose proof (j_tables _ _ _ H) as L; rewrite Forall_forall in L; apply L; eapply nthz_In; exact Et).
    eapply quiet_bind; [apply q_sub; assumption|]. intros x _. eapply quiet_bind; [apply q_check|]. intros _ _. apply q_const; [exact H|exact H1|]. destruct (tb_64 t); exact I. }
  intros st1 J1. eapply (quiet_bind (J false n)).
  { destruct (pe_items e) as [b|ty0 b]; (eapply quiet_bind; [apply quiet_read|]); intros l El; (eapply quiet_bind; [apply q_check|]); intros _ _; (apply quiet_each; [|exact J1]).
    - intros st' a _ H'. apply q_elem_func. exact H'.
    - destruct H2 as [_ H2]. pose proof (proj1 (y_section_eq ft _ _ _ _ _ (y_q_const ft) H2 El)) as L. rewrite Forall_forall in L. intros st' a Ha H'. apply q_const; [exact H'|apply L; exact Ha|exact Hty]. }
  intros st2 J2. eapply quiet_bind; [eapply q_assert; exact J2|]. intros _ _. cbn [quiet]. jok J2.
Qed.
Lemma q_counted {A} n st len max (f : mstate -> A -> outcome mstate) l : (forall st a, In a l -> J false n st -> quiet (J false n) (f st a)) -> J false n st -> quiet (J false n) (counted pos st len max f l).
Proof. intros Hf H. unfold counted. eapply quiet_bind; [apply q_max|]. intros _ _. eapply quiet_bind; [eapply q_assert; exact H|]. intros _ _. apply quiet_each; assumption. Qed.
Lemma q_add_data b n st d : J b n st -> q_data ft d -> quiet (J b n) (add_data F G ft pos st d).
Proof.
  intros H Hd. unfold add_data. unfold q_data in Hd. destruct (pd_kind d) as [|i e]; [eapply quiet_bind; [apply q_check|intros _ _; exact H]|].
  destruct (nthz _ _) as [w|]; [|exact I]. apply q_const_data; [exact H|exact Hd|]. destruct w; exact I.
Qed.

(** * Bodies *)
Definition f_ok (f : Z * list Z) : Prop := func_idx (fst f) /\ bytes_ok (snd f).
Definition next_code (st : mstate) : Z := match ms_code st with Some i => i | None => md_imported (ms_mod st) end.
Lemma q_code_entries n l : forall b st, Forall bytes_ok l -> J b n st -> 0 <= next_code st -> next_code st + zlen l <= zlen (md_functions (ms_mod st)) ->
  quiet (fun y => (exists b', J b' n (fst y)) /\ Forall f_ok (snd y)) (code_entries pos st l).
Proof.
  induction l as [|e l IH]; intros b st Hl H H0 Hn; cbn [code_entries]; [split; [exists b; exact H|constructor]|]. inversion Hl as [|? ? He Hl']; subst. rewrite zlen_cons in Hn. pose proof (zlen_nonneg l) as L0.
  unfold code_entry. fold (next_code st). destruct (check_max pos 0 (zlen e) MAX_FUNCTION_SIZE "function body size") eqn:Em; cbn [obind]; [|exact I|unfold check_max, check in Em; destruct (_ && _); discriminate].
  destruct (nthz (md_functions (ms_mod st)) (next_code st)) as [ty|] eqn:Et; [|exfalso; destruct (nthz_ex (md_functions (ms_mod st)) (next_code st)) as [x Hx]; [lia|congruence]].
  cbn [must obind]. eapply quiet_bind.
  - apply (IH true); [exact Hl'|jok H; [reflexivity|discriminate]|..]; unfold next_code; cbn [with_code ms_code ms_mod]; fold (next_code st); lia.
  - intros [st' fs] [Hs Hf]. cbn [fst snd quiet] in *. split; [exact Hs|]. constructor; [|exact Hf]. split; [|exact He]. cbn [fst]. pose proof (j_functions _ _ _ H) as Hx. rewrite Forall_forall in Hx. apply Hx. eapply nthz_In; exact Et.
Qed.
Lemma q_body b n st f : J b n st -> f_ok f -> quiet whatever (body F ft pos st f).
Proof.
  intros H [(id & Ei & t & ps & rs & Et & Ec) Hb]. unfold body. cbv zeta. rewrite (j_store _ _ _ H). pose proof (j_types _ _ _ H) as Hm.
  destruct (new_func _ _) as [v|e] eqn:En.
  - pose proof (validate_calm (module_resources s (ms_mod st)) F (msane _ Hm) ft 0 (fst f) pos (snd f)) as V. destruct (validate _ _ _ _ _ _ _); [exact I|exact I|]. apply V; [lia|exact Hb|reflexivity].
  - exfalso. unfold new_func in En. cbn [e_res module_resources r_sub_type_at] in En. unfold opt_nthz in En. rewrite Hm, Ei in En. unfold stored in En. fold T in En. rewrite Et in En. cbn [m_sub s_comp] in En.
    destruct t as [fi su co]. cbn [s_comp] in *. rewrite Ec in En. discriminate En.
Qed.
End Quiet.
