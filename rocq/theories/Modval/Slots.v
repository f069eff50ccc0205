(** The sections of a module in their order. *)
From Verif.Base Require Import Prelude.
From Verif.Reader Require Import Model.
From Verif.Types Require Import RefModel CodecModel EntityModel CanonModel CanonSpec CanonTop.
From Verif.Instr Require Import ImmModel Ops BodyModel.
From Verif.Sections Require Import SegModel.
From Verif.Validator Require Import State Checks Visit Api Body TypeSpec Module ModuleRes.
From Verif.Modval Require Import Model Spec Const Entities Stages Items.

(** * A module has a slot for each kind of section *)
Definition opt_sec {A} (mk : list A -> sec) (l : list A) (o : list sec) : Prop := o = [mk l] \/ (o = [] /\ l = []).
Definition opt_one {A} (mk : A -> sec) (x : option A) (o : list sec) : Prop := match x with Some a => o = [mk a] | None => o = [] end.
Lemma peel r l : in_order (r - 1) l -> (exists d l', l = d :: l' /\ rank d = r /\ in_order r l') \/ in_order r l.
Proof.
  destruct l as [|d l]; cbn [in_order]; [auto|]. intros [A B]. destruct (Z.eq_dec (rank d) r) as [E|E].
  - left. exists d, l. rewrite E in B. auto.
  - right. split; [lia|exact B].
Qed.
Section Slots.
Variable ft : features.
Variable pos : Z.
Lemma peel_1 im fn tb me tg gl ex st el dc co da l c : in_order 0 l -> d_sections ft pos (mkCt [] im fn tb me tg gl ex st el dc co da) l = Some c ->
  exists x ty o l', l = o ++ l' /\ opt_sec STypes x o /\ all_some g_group x = Some ty /\ in_order 1 l' /\ d_sections ft pos (mkCt ty im fn tb me tg gl ex st el dc co da) l' = Some c.
Proof.
  intros H D. destruct (peel 1 l H) as [(d & l' & -> & E & H')|H'].
  - destruct d as [x|x|x|x|x|x|x|x|x|x|x|x|x]; try (cbn in E; lia). cbn [d_sections d_section] in D. destruct (all_some g_group x) as [ty|] eqn:X; [|discriminate]. exists x, ty, [STypes x], l'. repeat split; [left; reflexivity|exact X|exact H'|exact D].
  - exists [], [], [], l. repeat split; [right; auto|exact H'|exact D].
Qed.
Lemma peel_2 ty fn tb me tg gl ex st el dc co da l c : in_order 1 l -> d_sections ft pos (mkCt ty [] fn tb me tg gl ex st el dc co da) l = Some c ->
  exists x im o l', l = o ++ l' /\ opt_sec SImports x o /\ all_some (d_imports ft pos) x = Some im /\ in_order 2 l' /\ d_sections ft pos (mkCt ty im fn tb me tg gl ex st el dc co da) l' = Some c.
Proof.
  intros H D. destruct (peel 2 l H) as [(d & l' & -> & E & H')|H'].
  - destruct d as [x|x|x|x|x|x|x|x|x|x|x|x|x]; try (cbn in E; lia). cbn [d_sections d_section] in D. destruct (all_some (d_imports ft pos) x) as [im|] eqn:X; [|discriminate]. exists x, im, [SImports x], l'. repeat split; [left; reflexivity|exact X|exact H'|exact D].
  - exists [], [], [], l. repeat split; [right; auto|exact H'|exact D].
Qed.
Lemma peel_3 ty im tb me tg gl ex st el dc co da l c : in_order 2 l -> d_sections ft pos (mkCt ty im [] tb me tg gl ex st el dc co da) l = Some c ->
  exists x fn o l', l = o ++ l' /\ opt_sec SFunctions x o /\ x = fn /\ in_order 3 l' /\ d_sections ft pos (mkCt ty im fn tb me tg gl ex st el dc co da) l' = Some c.
Proof.
  intros H D. destruct (peel 3 l H) as [(d & l' & -> & E & H')|H'].
  - destruct d as [x|x|x|x|x|x|x|x|x|x|x|x|x]; try (cbn in E; lia). cbn [d_sections d_section] in D. exists x, x, [SFunctions x], l'. repeat split; [left; reflexivity|exact H'|exact D].
  - exists [], [], [], l. repeat split; [right; auto|exact H'|exact D].
Qed.
Lemma peel_4 ty im fn me tg gl ex st el dc co da l c : in_order 3 l -> d_sections ft pos (mkCt ty im fn [] me tg gl ex st el dc co da) l = Some c ->
  exists x tb o l', l = o ++ l' /\ opt_sec STables x o /\ all_some (d_table ft pos) x = Some tb /\ in_order 4 l' /\ d_sections ft pos (mkCt ty im fn tb me tg gl ex st el dc co da) l' = Some c.
Proof.
  intros H D. destruct (peel 4 l H) as [(d & l' & -> & E & H')|H'].
  - destruct d as [x|x|x|x|x|x|x|x|x|x|x|x|x]; try (cbn in E; lia). cbn [d_sections d_section] in D. destruct (all_some (d_table ft pos) x) as [tb|] eqn:X; [|discriminate]. exists x, tb, [STables x], l'. repeat split; [left; reflexivity|exact X|exact H'|exact D].
  - exists [], [], [], l. repeat split; [right; auto|exact H'|exact D].
Qed.
Lemma peel_5 ty im fn tb tg gl ex st el dc co da l c : in_order 4 l -> d_sections ft pos (mkCt ty im fn tb [] tg gl ex st el dc co da) l = Some c ->
  exists x me o l', l = o ++ l' /\ opt_sec SMemories x o /\ x = me /\ in_order 5 l' /\ d_sections ft pos (mkCt ty im fn tb me tg gl ex st el dc co da) l' = Some c.
Proof.
  intros H D. destruct (peel 5 l H) as [(d & l' & -> & E & H')|H'].
  - destruct d as [x|x|x|x|x|x|x|x|x|x|x|x|x]; try (cbn in E; lia). cbn [d_sections d_section] in D. exists x, x, [SMemories x], l'. repeat split; [left; reflexivity|exact H'|exact D].
  - exists [], [], [], l. repeat split; [right; auto|exact H'|exact D].
Qed.
Lemma peel_6 ty im fn tb me gl ex st el dc co da l c : in_order 5 l -> d_sections ft pos (mkCt ty im fn tb me [] gl ex st el dc co da) l = Some c ->
  exists x tg o l', l = o ++ l' /\ opt_sec STags x o /\ x = tg /\ in_order 6 l' /\ d_sections ft pos (mkCt ty im fn tb me tg gl ex st el dc co da) l' = Some c.
Proof.
  intros H D. destruct (peel 6 l H) as [(d & l' & -> & E & H')|H'].
  - destruct d as [x|x|x|x|x|x|x|x|x|x|x|x|x]; try (cbn in E; lia). cbn [d_sections d_section] in D. exists x, x, [STags x], l'. repeat split; [left; reflexivity|exact H'|exact D].
  - exists [], [], [], l. repeat split; [right; auto|exact H'|exact D].
Qed.
Lemma peel_7 ty im fn tb me tg ex st el dc co da l c : in_order 6 l -> d_sections ft pos (mkCt ty im fn tb me tg [] ex st el dc co da) l = Some c ->
  exists x gl o l', l = o ++ l' /\ opt_sec SGlobals x o /\ all_some (d_global ft pos) x = Some gl /\ in_order 7 l' /\ d_sections ft pos (mkCt ty im fn tb me tg gl ex st el dc co da) l' = Some c.
Proof.
  intros H D. destruct (peel 7 l H) as [(d & l' & -> & E & H')|H'].
  - destruct d as [x|x|x|x|x|x|x|x|x|x|x|x|x]; try (cbn in E; lia). cbn [d_sections d_section] in D. destruct (all_some (d_global ft pos) x) as [gl|] eqn:X; [|discriminate]. exists x, gl, [SGlobals x], l'. repeat split; [left; reflexivity|exact X|exact H'|exact D].
  - exists [], [], [], l. repeat split; [right; auto|exact H'|exact D].
Qed.
Lemma peel_8 ty im fn tb me tg gl st el dc co da l c : in_order 7 l -> d_sections ft pos (mkCt ty im fn tb me tg gl [] st el dc co da) l = Some c ->
  exists x ex o l', l = o ++ l' /\ opt_sec SExports x o /\ x = ex /\ in_order 8 l' /\ d_sections ft pos (mkCt ty im fn tb me tg gl ex st el dc co da) l' = Some c.
Proof.
  intros H D. destruct (peel 8 l H) as [(d & l' & -> & E & H')|H'].
  - destruct d as [x|x|x|x|x|x|x|x|x|x|x|x|x]; try (cbn in E; lia). cbn [d_sections d_section] in D. exists x, x, [SExports x], l'. repeat split; [left; reflexivity|exact H'|exact D].
  - exists [], [], [], l. repeat split; [right; auto|exact H'|exact D].
Qed.
Lemma peel_9 ty im fn tb me tg gl ex el dc co da l c : in_order 8 l -> d_sections ft pos (mkCt ty im fn tb me tg gl ex None el dc co da) l = Some c ->
  exists st o l', l = o ++ l' /\ opt_one SStart st o /\ in_order 9 l' /\ d_sections ft pos (mkCt ty im fn tb me tg gl ex st el dc co da) l' = Some c.
Proof.
  intros H D. destruct (peel 9 l H) as [(d & l' & -> & E & H')|H'].
  - destruct d; try (cbn in E; lia). cbn [d_sections d_section] in D. eexists (Some _), [_], l'. repeat split; [exact H'|exact D].
  - exists None, [], l. repeat split; assumption.
Qed.
Lemma peel_10 ty im fn tb me tg gl ex st dc co da l c : in_order 9 l -> d_sections ft pos (mkCt ty im fn tb me tg gl ex st [] dc co da) l = Some c ->
  exists x el o l', l = o ++ l' /\ opt_sec SElements x o /\ all_some (d_elem ft pos) x = Some el /\ in_order 10 l' /\ d_sections ft pos (mkCt ty im fn tb me tg gl ex st el dc co da) l' = Some c.
Proof.
  intros H D. destruct (peel 10 l H) as [(d & l' & -> & E & H')|H'].
  - destruct d as [x|x|x|x|x|x|x|x|x|x|x|x|x]; try (cbn in E; lia). cbn [d_sections d_section] in D. destruct (all_some (d_elem ft pos) x) as [el|] eqn:X; [|discriminate]. exists x, el, [SElements x], l'. repeat split; [left; reflexivity|exact X|exact H'|exact D].
  - exists [], [], [], l. repeat split; [right; auto|exact H'|exact D].
Qed.
Lemma peel_11 ty im fn tb me tg gl ex st el co da l c : in_order 10 l -> d_sections ft pos (mkCt ty im fn tb me tg gl ex st el None co da) l = Some c ->
  exists dc o l', l = o ++ l' /\ opt_one SDataCount dc o /\ in_order 11 l' /\ d_sections ft pos (mkCt ty im fn tb me tg gl ex st el dc co da) l' = Some c.
Proof.
  intros H D. destruct (peel 11 l H) as [(d & l' & -> & E & H')|H'].
  - destruct d; try (cbn in E; lia). cbn [d_sections d_section] in D. eexists (Some _), [_], l'. repeat split; [exact H'|exact D].
  - exists None, [], l. repeat split; assumption.
Qed.
Lemma peel_12 ty im fn tb me tg gl ex st el dc da l c : in_order 11 l -> d_sections ft pos (mkCt ty im fn tb me tg gl ex st el dc [] da) l = Some c ->
  exists x co o l', l = o ++ l' /\ opt_sec SCode x o /\ all_some (d_body ft pos) x = Some co /\ in_order 12 l' /\ d_sections ft pos (mkCt ty im fn tb me tg gl ex st el dc co da) l' = Some c.
Proof.
  intros H D. destruct (peel 12 l H) as [(d & l' & -> & E & H')|H'].
  - destruct d as [x|x|x|x|x|x|x|x|x|x|x|x|x]; try (cbn in E; lia). cbn [d_sections d_section] in D. destruct (all_some (d_body ft pos) x) as [co|] eqn:X; [|discriminate]. exists x, co, [SCode x], l'. repeat split; [left; reflexivity|exact X|exact H'|exact D].
  - exists [], [], [], l. repeat split; [right; auto|exact H'|exact D].
Qed.
Lemma peel_13 ty im fn tb me tg gl ex st el dc co l c : in_order 12 l -> d_sections ft pos (mkCt ty im fn tb me tg gl ex st el dc co []) l = Some c ->
  exists x da o l', l = o ++ l' /\ opt_sec SData x o /\ all_some (d_data ft pos) x = Some da /\ in_order 13 l' /\ d_sections ft pos (mkCt ty im fn tb me tg gl ex st el dc co da) l' = Some c.
Proof.
  intros H D. destruct (peel 13 l H) as [(d & l' & -> & E & H')|H'].
  - destruct d as [x|x|x|x|x|x|x|x|x|x|x|x|x]; try (cbn in E; lia). cbn [d_sections d_section] in D. destruct (all_some (d_data ft pos) x) as [da|] eqn:X; [|discriminate]. exists x, da, [SData x], l'. repeat split; [left; reflexivity|exact X|exact H'|exact D].
  - exists [], [], [], l. repeat split; [right; auto|exact H'|exact D].
Qed.
End Slots.
Lemma in_order_end l : in_order 13 l -> l = [].
Proof. destruct l as [|d l]; [reflexivity|]. cbn [in_order]. intros [H _]. destruct d; cbn [rank] in H; lia. Qed.

(** * Each slot *)
Section Sections.
Variable F : feature -> bool.
Variable G : m_feature -> bool.
Variable ft : features.
Variable pos : Z.
Hypothesis HF : forall f, f <> f_custom_descriptors -> F f = true.
Hypothesis HG : forall g, G g = true.
Hypothesis Hpos : 0 < pos.
Notation exact := (F f_custom_descriptors).
Notation sect := (section F G ft pos).
Lemma slot {A} (mk : list A -> sec) l o x y : opt_sec mk l o -> (l = [] -> sect x (mk l) = Done x) -> (each sect x o = Done y <-> sect x (mk l) = Done y).
Proof.
  intros [->|[-> E]] H; cbn [each].
  - destruct (sect x (mk l)); cbn [obind]; split; congruence.
  - rewrite (H E). reflexivity.
Qed.
Lemma keep_done (o : outcome mstate) (fs : list (Z * list Z)) y : obind o (fun st => Done (st, fs)) = Done y <-> exists st, o = Done st /\ y = (st, fs).
Proof. rewrite obind_done. split; intros (st & A & B); exists st; (split; [exact A|]); congruence. Qed.
Lemma counted_nil {A} st len max (f : mstate -> A -> outcome mstate) : ms_frozen st = false -> len <= max -> counted pos st len max f [] = Done st.
Proof. intros K1 K2. apply counted_done. repeat split; auto. change (zlen (@nil A)) with 0. lia. Qed.
Lemma all_some_zlen {A B} (f : A -> option B) l m : all_some f l = Some m -> zlen l = zlen m.
Proof.
  revert m. induction l as [|a l IH]; cbn [all_some]; intros m H; [injection H as <-; reflexivity|]. destruct (f a); [|discriminate]. destruct (all_some f l) as [m'|]; [|discriminate].
  injection H as <-. rewrite !zlen_cons, (IH m' eq_refl). reflexivity.
Qed.
Lemma slot_types k l gs o st w y : opt_sec STypes l o -> all_some g_group l = Some gs -> in_world k st w -> w_scope w k = [] ->
  each sect (st, []) o = Done y <-> exists w', zlen gs <= 1000000 /\ run w (map (AddGroup k) gs) = CanonModel.Done w' /\ y = (with_world k st w', []).
Proof.
  intros O D W E0. pose proof W as (W1 & W2 & W3). rewrite (slot _ _ _ _ _ O).
  2: { intros ->. cbn [section fst snd]. rewrite counted_nil; [reflexivity|exact W3|rewrite W2, E0; unfold zlen, MAX_TYPES; cbn [List.length]; lia]. }
  cbn [section fst snd]. rewrite keep_done. setoid_rewrite counted_done. rewrite W2, E0. change (zlen (@nil Z)) with 0. setoid_rewrite (types_each pos k l gs D st w W). rewrite (all_some_zlen _ _ _ D). unfold MAX_TYPES. split.
  - intros (st' & (_ & L & _ & w' & R & ->) & ->). exists w'. repeat split; auto.
  - intros (w' & L & R & ->). eexists. split; [|reflexivity]. repeat split; auto; try lia. eauto.
Qed.
Variable s : store.
Variable ids : list Z.
Hypothesis RES : forall m, md_types m = ids -> res_ok (module_resources s m).
Notation fun_at := (func_at s ids).
Notation here := (here_st s ids).
Lemma slot_imports l gs o st y : opt_sec SImports l o -> all_some (d_imports ft pos) l = Some gs -> here st -> fits st ->
  each sect (st, []) o = Done y <-> exists t g, zlen gs <= 1000000 /\ imports_ok F s ids st (List.concat gs) t g /\ y = (imp_st s ids st (List.concat gs) t g, []).
Proof.
  intros O D H Fi. rewrite (slot _ _ _ _ _ O).
  2: { intros ->. cbn [section fst snd]. rewrite counted_nil; [reflexivity|apply H|unfold MAX_IMPORTS; lia]. }
  cbn [section fst snd]. rewrite keep_done. setoid_rewrite counted_done. setoid_rewrite (imports_each F G ft pos HF HG Hpos s ids RES l gs st _ D H Fi). rewrite (all_some_zlen _ _ _ D). unfold MAX_IMPORTS. split.
  - intros (st' & (_ & L & _ & t & g & K & ->) & ->). exists t, g. repeat split; try apply K. lia.
  - intros (t & g & L & K & ->). eexists. split; [|reflexivity]. split; [lia|]. split; [lia|]. split; [apply H|]. eauto.
Qed.
Lemma slot_functions l o st y : opt_sec SFunctions l o -> here st -> zlen (md_functions (ms_mod st)) <= 1000000 ->
  each sect (st, []) o = Done y <-> zlen (md_functions (ms_mod st)) + zlen l <= 1000000 /\ Forall (fun i => fun_at i <> None) l /\ y = (add_fns st l, []).
Proof.
  intros O H Fi. rewrite (slot _ _ _ _ _ O).
  2: { intros ->. cbn [section fst snd]. rewrite counted_nil; [reflexivity|apply H|exact Fi]. }
  cbn [section fst snd]. rewrite keep_done. setoid_rewrite counted_done. setoid_rewrite (functions_each pos s ids l st _ H). unfold MAX_FUNCTIONS. split.
  - intros (st' & (_ & L & _ & K & ->) & ->). auto.
  - intros (L & K & ->). eexists. split; [|reflexivity]. repeat split; auto. apply H.
Qed.
Lemma slot_memories l o st y : opt_sec SMemories l o -> here st -> zlen (md_memories (ms_mod st)) <= 100 ->
  each sect (st, []) o = Done y <-> zlen (md_memories (ms_mod st)) + zlen l <= 100 /\ Forall memory_ok l /\ y = (add_mems st l, []).
Proof.
  assert (Mm : max_memories G = 100) by (unfold max_memories; rewrite HG; reflexivity).
  intros O H Fi. rewrite (slot _ _ _ _ _ O).
  2: { intros ->. cbn [section fst snd]. rewrite counted_nil; [reflexivity|apply H|rewrite Mm; exact Fi]. }
  cbn [section fst snd]. rewrite keep_done, Mm. setoid_rewrite counted_done. setoid_rewrite (memories_each F G pos HF HG s ids l st _ H). split.
  - intros (st' & (_ & L & _ & K & ->) & ->). auto.
  - intros (L & K & ->). eexists. split; [|reflexivity]. repeat split; auto. apply H.
Qed.
Lemma slot_tags l o st y : opt_sec STags l o -> here st -> zlen (md_tags (ms_mod st)) <= 1000000 ->
  each sect (st, []) o = Done y <-> zlen (md_tags (ms_mod st)) + zlen l <= 1000000 /\ Forall (fun i => fun_at i <> None) l /\ y = (add_tgs ids st l, []).
Proof.
  intros O H Fi. rewrite (slot _ _ _ _ _ O).
  2: { intros ->. cbn [section fst snd]. rewrite need_done by (exact HF || discriminate). cbn [obind]. rewrite counted_nil; [reflexivity|apply H|exact Fi]. }
  cbn [section fst snd]. rewrite need_done by (exact HF || discriminate). cbn [obind]. rewrite keep_done. setoid_rewrite counted_done. setoid_rewrite (tags_each F pos HF s ids l st _ H). unfold MAX_TAGS. split.
  - intros (st' & (_ & L & _ & K & ->) & ->). auto.
  - intros (L & K & ->). eexists. split; [|reflexivity]. repeat split; auto. apply H.
Qed.
Variable c : contents.
Lemma slot_tables l ds o g st y : opt_sec STables l o -> Forall2 (r_table ft pos c) l ds -> sees s ids c st g -> ms_frozen st = false -> zlen (md_tables (ms_mod st)) <= 100 ->
  each sect (st, []) o = Done y <-> exists xs, zlen (md_tables (ms_mod st)) + zlen ds <= 100 /\ (Forall2 (table_ok exact s ids) (map td_ty ds) xs /\ Forall2 (init_ok F s ids c g) ds xs) /\
    y = (grow st xs [] [] (flat_map table_refs ds), []).
Proof.
  assert (Mt : max_tables F = 100) by (unfold max_tables; rewrite HF by discriminate; reflexivity).
  intros O R S Fr Fi. rewrite (slot _ _ _ _ _ O).
  2: { intros ->. cbn [section fst snd]. rewrite counted_nil; [reflexivity|exact Fr|rewrite Mt; exact Fi]. }
  cbn [section fst snd]. rewrite keep_done, Mt. setoid_rewrite counted_done. setoid_rewrite (tables_each F G ft pos HF HG Hpos s ids RES c g l ds st _ R S Fr). rewrite (zlen_forall2 _ _ _ R). split.
  - intros (st' & (_ & L & _ & xs & K & ->) & ->). eauto.
  - intros (xs & L & K & ->). eexists. split; [|reflexivity]. repeat (split; [assumption|]). eauto.
Qed.
Lemma slot_globals l ds o g st y : opt_sec SGlobals l o -> Forall2 (r_global ft pos c) l ds -> sees s ids c st g -> ms_frozen st = false -> zlen (md_globals (ms_mod st)) <= 1000000 ->
  each sect (st, []) o = Done y <-> exists xs, zlen (md_globals (ms_mod st)) + zlen ds <= 1000000 /\ (Forall2 (global_ok exact s ids) (map gd_ty ds) xs /\ inits_ok F s ids c g ds xs) /\
    y = (grow st [] xs [] (flat_map (fun d => expr_refs (gd_init d)) ds), []).
Proof.
  intros O R S Fr Fi. rewrite (slot _ _ _ _ _ O).
  2: { intros ->. cbn [section fst snd]. rewrite counted_nil; [reflexivity|exact Fr|exact Fi]. }
  cbn [section fst snd]. rewrite keep_done. setoid_rewrite counted_done. setoid_rewrite (globals_each F G ft pos HF HG Hpos s ids RES c l ds R g st _ S Fr). rewrite (zlen_forall2 _ _ _ R). unfold MAX_GLOBALS. split.
  - intros (st' & (_ & L & _ & xs & K & ->) & ->). eauto.
  - intros (xs & L & K & ->). eexists. split; [|reflexivity]. repeat (split; [assumption|]). eauto.
Qed.
Hypothesis FNS : Forall (fun i => fun_at i <> None) (functions c).
Variable tables : list tblty.
Variable globals : list glbty.
Hypothesis TAGS : Forall (fun i => fun_at i <> None) (tag_types c).
Notation full := (complete s ids c tables globals).
Lemma slot_exports l o st y : opt_sec SExports l o -> full st -> ms_frozen st = false -> ms_size st < 1000000 -> ms_exports st = [] ->
  each sect (st, []) o = Done y <->
  (zlen l <= 1000000 /\ Forall (export_ok c tables globals) l /\ NoDup (map px_name l) /\ ms_size st + sum (map (export_size s ids c) l) < 1000000) /\ y = (exported s ids c st l, []).
Proof.
  intros O S Fr Sz En. rewrite (slot _ _ _ _ _ O).
  2: { intros ->. cbn [section fst snd]. rewrite counted_nil; [reflexivity|exact Fr|rewrite En; unfold zlen, MAX_EXPORTS; cbn [List.length]; lia]. }
  assert (Nd : NoDup (ms_exports st)) by (rewrite En; constructor).
  cbn [section fst snd]. rewrite keep_done. setoid_rewrite counted_done. setoid_rewrite (exports_each G pos HG s ids c FNS tables globals TAGS l st _ S Fr Sz Nd). rewrite En. change (zlen (@nil (list Z))) with 0. cbn [app]. unfold MAX_EXPORTS. split.
  - intros (st' & (_ & L & _ & K & ->) & ->). split; [|reflexivity]. split; [lia|exact K].
  - intros ((L & K) & ->). eexists. split; [|reflexivity]. split; [lia|]. split; [lia|]. split; [exact Fr|]. auto.
Qed.
Lemma slot_start o st y : opt_one SStart (ct_start c) o -> full st -> each sect (st, []) o = Done y <-> start_ok s ids c /\ y = (st, []).
Proof.
  intros O S. unfold opt_one, start_ok in *. destruct (ct_start c) as [f|]; subst o; cbn [each].
  - rewrite obind_done. cbn [section fst snd]. setoid_rewrite keep_done. setoid_rewrite (start_iff pos s ids c tables globals st f _ S). split.
    + intros (x & (st' & (K & ->) & ->) & H). injection H as <-. auto.
    + intros (K & ->). eauto 6.
  - split; [intros H; injection H as <-; auto|intros [_ ->]; reflexivity].
Qed.
Lemma slot_elements l ds o st y : opt_sec SElements l o -> Forall2 (r_elem ft pos c) l ds -> full st -> ms_frozen st = false -> md_elements (ms_mod st) = [] ->
  each sect (st, []) o = Done y <-> exists xs, zlen ds <= 100000 /\ (Forall2 (elem_ok exact s ids c tables globals) ds xs /\ Forall entries_ok ds) /\ y = (grow st [] [] xs (flat_map elem_refs ds), []).
Proof.
  intros O R S Fr Ee. rewrite (slot _ _ _ _ _ O).
  2: { intros ->. cbn [section fst snd]. rewrite counted_nil; [reflexivity|exact Fr|rewrite Ee; unfold zlen, MAX_ELEMENTS; cbn [List.length]; lia]. }
  cbn [section fst snd]. rewrite keep_done. setoid_rewrite counted_done. setoid_rewrite (elements_each F G ft pos HF HG Hpos s ids RES c FNS tables globals l ds st _ R S Fr). rewrite (zlen_forall2 _ _ _ R), Ee.
  change (zlen (@nil rf)) with 0. unfold MAX_ELEMENTS. split.
  - intros (st' & (_ & L & _ & xs & K & ->) & ->). exists xs. split; [lia|]. auto.
  - intros (xs & L & K & ->). eexists. split; [|reflexivity]. split; [lia|]. split; [lia|]. split; [exact Fr|]. eauto.
Qed.
Definition with_count (st : mstate) (n : option Z) : mstate := match n with Some n => with_mod st (set_data_count (ms_mod st) (Some n)) | None => st end.
Lemma slot_count n o st y : opt_one SDataCount n o -> ms_frozen st = false ->
  each sect (st, []) o = Done y <-> match n with Some n => n <= 100000 | None => True end /\ y = (with_count st n, []).
Proof.
  intros O Fr. unfold opt_one, with_count in *. destruct n as [n|]; subst o; cbn [each].
  - rewrite obind_done. cbn [section fst snd]. setoid_rewrite keep_done. unfold assert_mut. rewrite Fr. setoid_rewrite unit_done. setoid_rewrite check_done. setoid_rewrite Z.leb_le. split.
    + intros (x & (st' & (K & E) & ->) & H). injection H as <-. injection E as <-. auto.
    + intros (K & ->). eexists. split; [|reflexivity]. eexists. split; [|reflexivity]. auto.
  - split; [intros H; injection H as <-; auto|intros [_ ->]; reflexivity].
Qed.
Lemma slot_code l o st pre tys y : opt_sec SCode l o -> ms_frozen st = false -> md_functions (ms_mod st) = pre ++ tys -> List.length l = List.length tys -> ms_code st = None -> zlen pre = md_imported (ms_mod st) ->
  each sect (st, []) o = Done y <-> Forall (fun b => zlen b <= 7654321) l /\ y = (coded st l, List.combine tys l).
Proof.
  intros O Fr Ef El Ec Ei. rewrite (slot _ _ _ _ _ O).
  2: { intros ->. cbn [section fst snd]. unfold assert_mut. rewrite Fr. reflexivity. }
  cbn [section fst snd]. unfold assert_mut. rewrite Fr. cbn [obind]. rewrite obind_done. setoid_rewrite (code_each pos l tys pre st _ Ef El ltac:(rewrite Ec; exact Ei)). split.
  - intros ([st' fs] & (K & E) & H). injection E as -> ->. injection H as <-. auto.
  - intros (K & ->). eexists. split; [split; [exact K|reflexivity]|]. reflexivity.
Qed.
Lemma slot_data l ds o st fs y : opt_sec SData l o -> Forall2 (r_data ft pos) l ds -> full st ->
  each sect (st, fs) o = Done y <-> (zlen ds <= 100000 /\ Forall (data_ok exact s ids c globals) ds) /\ y = (st, fs).
Proof.
  intros O R S. rewrite (slot _ _ _ _ _ O).
  2: { intros ->. reflexivity. }
  cbn [section fst snd]. rewrite keep_done. setoid_rewrite unit_done. setoid_rewrite (data_each F G ft pos HF HG Hpos s ids RES c tables globals l ds R st _ S). unfold check_max. setoid_rewrite check_done.
  setoid_rewrite Bool.andb_true_iff. setoid_rewrite Z.leb_le. rewrite (zlen_forall2 _ _ _ R). unfold MAX_DATA. split.
  - intros (st' & ((_ & L) & K & ->) & ->). split; [split; [lia|exact K]|reflexivity].
  - intros ((L & K) & ->). eexists. split; [|reflexivity]. split; [split; lia|]. auto.
Qed.
End Sections.
