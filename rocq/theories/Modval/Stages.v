(** The sections that only add types of entities: types, imports, functions, memories, tags. *)
From Verif.Base Require Import Prelude.
From Verif.Reader Require Import Model.
From Verif.Types Require Import RefModel CodecModel EntityModel CanonModel CanonSpec CanonTop.
From Verif.Instr Require Import ImmModel Ops BodyModel.
From Verif.Sections Require Import SegModel.
From Verif.Validator Require Import State Checks Visit Api Body TypeSpec Module ModuleRes.
From Verif.Modval Require Import Model Spec Entities.

Lemma each_app {A S} (f : S -> A -> outcome S) : forall l l' s, each f s (l ++ l') = obind (each f s l) (fun s => each f s l').
Proof. induction l as [|a l IH]; intros l' s; cbn [each app]; [reflexivity|]. destruct (f s a); cbn [obind]; [apply IH|reflexivity|reflexivity]. Qed.
Lemma each_concat {A S} (f : S -> A -> outcome S) : forall l s, each (fun s l => each f s l) s l = each f s (List.concat l).
Proof. induction l as [|a l IH]; intros s; cbn [each List.concat]; [reflexivity|]. rewrite each_app. destruct (each f s a); cbn [obind]; auto. Qed.
Lemma each_ext {A S} (f g : S -> A -> outcome S) : (forall s a, f s a = g s a) -> forall l s, each f s l = each g s l.
Proof. intros H. induction l as [|a l IH]; intros s; cbn [each]; [reflexivity|]. rewrite H. destruct (g s a); cbn [obind]; auto. Qed.
(** A section whose items each have a specification. *)
Section Each.
Context {A B X S : Type}.
Variable f : S -> A -> outcome S.
Variable R : A -> B -> Prop.
Variable P : B -> X -> Prop.
Variable U : S -> list B -> list X -> S.
Variable J : S -> Prop.
Hypothesis U0 : forall s, U s [] [] = s.
Hypothesis U1 : forall s a x l xs, U s (a :: l) (x :: xs) = U (U s [a] [x]) l xs.
Hypothesis HJ : forall s a x, J s -> P a x -> J (U s [a] [x]).
Hypothesis Hf : forall s a b s', J s -> R a b -> (f s a = Done s' <-> exists x, P b x /\ s' = U s [b] [x]).
Lemma each_iff : forall l ds, Forall2 R l ds -> forall s s', J s -> (each f s l = Done s' <-> exists xs, Forall2 P ds xs /\ s' = U s ds xs).
Proof.
  induction 1 as [|a b l ds Hab Hl IH]; intros s s' Js; cbn [each].
  - split; [intros H; injection H as <-; exists []; split; [constructor|symmetry; apply U0]|]. intros (xs & H & ->). inversion H; subst. rewrite U0. reflexivity.
  - rewrite obind_done. split.
    + intros (s1 & H1 & H2). apply (Hf s a b s1 Js Hab) in H1. destruct H1 as (x & Px & ->). apply IH in H2; [|apply HJ; assumption].
      destruct H2 as (xs & H & ->). exists (x :: xs). split; [constructor; assumption|]. symmetry. apply U1.
    + intros (xs & H & ->). inversion H as [|b' x ds' xs' Px Hxs E1 E2]; subst. exists (U s [b] [x]). split.
      * apply (Hf s a b _ Js Hab). eauto.
      * apply IH; [apply HJ; assumption|]. exists xs'. split; [assumption|]. apply U1.
Qed.
End Each.

Definition idof (ids : list Z) (i : Z) : list Z := match nthz ids i with Some id => [id] | None => [] end.

Section Stages.
Variable F : feature -> bool.
Variable G : m_feature -> bool.
Variable ft : features.
Variable pos : Z.
Hypothesis HF : forall f, f <> f_custom_descriptors -> F f = true.
Hypothesis HG : forall g, G g = true.
Hypothesis Hpos : 0 < pos.
Notation exact := (F f_custom_descriptors).

Lemma counted_done {A} st len max (f : mstate -> A -> outcome mstate) l st' :
  counted pos st len max f l = Done st' <-> len <= max /\ len + zlen l <= max /\ ms_frozen st = false /\ each f st l = Done st'.
Proof.
  unfold counted, check_max, assert_mut. rewrite unit_done, check_done, Bool.andb_true_iff, !Z.leb_le, unit_done.
  destruct (ms_frozen st); split; intros H; decompose [and] H; try discriminate; repeat split; auto; lia.
Qed.

(** ** Types *)
Definition in_world (k : Z) (st : mstate) (w : world) : Prop := ms_store st = w_store w /\ md_types (ms_mod st) = w_scope w k /\ ms_frozen st = false.
Definition with_world (k : Z) (st : mstate) (w : world) : mstate := with_mod (with_store st (w_store w)) (set_types (ms_mod st) (w_scope w k)).
Lemma types_each k : forall l gs, all_some g_group l = Some gs -> forall st w, in_world k st w -> forall st',
  each (add_types pos) st l = Done st' <-> exists w', run w (map (AddGroup k) gs) = CanonModel.Done w' /\ st' = with_world k st w'.
Proof.
  induction l as [|r l IH]; intros gs Hg st w (E1 & E2 & E3) st'; cbn [all_some] in Hg.
  - injection Hg as <-. cbn. split.
    + intros H. injection H as <-. exists w. split; [reflexivity|]. unfold with_world. rewrite <- E1, <- E2. destruct st as [s []]. reflexivity.
    + intros (w' & H & ->). injection H as <-. unfold with_world. rewrite <- E1, <- E2. destruct st as [s []]. reflexivity.
  - destruct (g_group r) as [g|] eqn:Er; [|discriminate]. destruct (all_some g_group l) as [gs'|] eqn:El; [|discriminate]. injection Hg as <-.
    cbn [each map run step]. unfold add_types at 1, assert_mut. rewrite E3, Er, E1, E2. cbn [obind must].
    destruct (add_group (w_store w) (w_scope w k) g) as [[s' ids']| | |]; cbn [canon of_canon obind CanonModel.obind fst snd].
    2-4: split; [discriminate|]; intros (w' & H & _); discriminate.
    rewrite (IH gs' eq_refl _ (mkWorld s' (upd (w_scope w) k ids'))).
    + split; intros (w' & H & ->); exists w'; (split; [exact H|]); reflexivity.
    + split; [reflexivity|]. split; [|exact E3]. cbn. unfold upd. rewrite Z.eqb_refl. reflexivity.
Qed.

(** ** Imports, in a store of types that does not change any more *)
Variable s : store.
Variable ids : list Z.
Hypothesis RES : forall m, md_types m = ids -> res_ok (module_resources s m).
Notation fun_at := (func_at s ids).
Definition here_st (st : mstate) : Prop := ms_store st = s /\ md_types (ms_mod st) = ids /\ ms_frozen st = false.
Definition ifuncs (l : list p_entity) : list Z := flat_map (fun e => match e with NFunc i | NFuncExact i => [i] | _ => [] end) l.
Definition itables (l : list p_entity) : list (table_ty Z) := flat_map (fun e => match e with NTable t => [t] | _ => [] end) l.
Definition imems (l : list p_entity) : list memory_ty := flat_map (fun e => match e with NMemory t => [t] | _ => [] end) l.
Definition itags (l : list p_entity) : list Z := flat_map (fun e => match e with NTag i => [i] | _ => [] end) l.
Definition iglobs (l : list p_entity) : list (global_ty p_val) := flat_map (fun e => match e with NGlobal t => [t] | _ => [] end) l.
Definition imp_st (st : mstate) (l : list p_entity) (tbs : list tblty) (gls : list glbty) : mstate :=
  let m := ms_mod st in
  mkMs (ms_store st)
    (mkModul (md_types m) (md_functions m ++ ifuncs l) (md_tables m ++ tbs) (md_memories m ++ map m_64 (imems l)) (md_globals m ++ gls)
      (md_tags m ++ flat_map (idof ids) (itags l)) (md_elements m) (md_data_count m) (md_references m)
      (md_imported m + zlen (ifuncs l)) (md_exact_imports m ++ exact_from (md_imported m) l))
    (ms_globals_imported st + zlen (iglobs l)) (ms_exports st) (ms_size st + sum (map (import_size s ids) l)) (ms_code st) (ms_frozen st).
Definition fits (st : mstate) : Prop :=
  let m := ms_mod st in
  zlen (md_functions m) <= 1000000 /\ zlen (md_tables m) <= 100 /\ zlen (md_memories m) <= 100 /\ zlen (md_tags m) <= 1000000 /\
  zlen (md_globals m) <= 1000000 /\ ms_size st < 1000000.
Definition imports_ok (st : mstate) (l : list p_entity) (tbs : list tblty) (gls : list glbty) : Prop :=
  Forall (fun i => fun_at i <> None) (ifuncs l) /\ Forall2 (table_ok exact s ids) (itables l) tbs /\ Forall memory_ok (imems l) /\
  Forall (fun i => fun_at i <> None) (itags l) /\ Forall2 (global_ok exact s ids) (iglobs l) gls /\ fits (imp_st st l tbs gls).
Lemma sum_app a b : sum (a ++ b) = sum a + sum b.
Proof. unfold sum. induction a as [|x a IH]; cbn [app fold_right]; lia. Qed.
Lemma import_size_pos e : 0 <= import_size s ids e.
Proof. unfold import_size, type_size. destruct e; try lia; destruct (fun_at _) as [[ps rs]|]; try lia; pose proof (zlen_nonneg ps); pose proof (zlen_nonneg rs); lia. Qed.
Lemma sum_pos {A} (f : A -> Z) : (forall a, 0 <= f a) -> forall l, 0 <= sum (map f l).
Proof. intros H. induction l as [|x l IH]; cbn [map]; unfold sum in *; cbn [fold_right]; [lia|]. specialize (H x). lia. Qed.
Lemma exact_from_app : forall a b n, exact_from n (a ++ b) = exact_from n a ++ exact_from (n + zlen (ifuncs a)) b.
Proof.
  induction a as [|e a IH]; intros b n; cbn [app exact_from]; [rewrite Z.add_0_r; reflexivity|].
  destruct e; cbn [ifuncs flat_map app exact_from]; fold (ifuncs a); rewrite IH; try reflexivity; rewrite zlen_cons; rewrite <- Z.add_assoc; reflexivity.
Qed.
Lemma imp_st_app st a b t t' g g' : imp_st (imp_st st a t g) b t' g' = imp_st st (a ++ b) (t ++ t') (g ++ g').
Proof.
  unfold imp_st, ifuncs, imems, itags, iglobs. cbn [ms_store ms_mod ms_globals_imported ms_exports ms_size ms_code ms_frozen md_types md_functions md_tables md_memories md_globals md_tags md_elements md_data_count md_references md_imported md_exact_imports].
  rewrite exact_from_app, !flat_map_app, !map_app, !zlen_app, sum_app, <- !app_assoc, <- !Z.add_assoc. reflexivity.
Qed.
Lemma fits_app st a b t t' g g' : fits (imp_st st (a ++ b) (t ++ t') (g ++ g')) -> fits (imp_st st a t g).
Proof.
  rewrite <- imp_st_app. unfold fits. cbn [imp_st ms_mod ms_size md_functions md_tables md_memories md_globals md_tags].
  rewrite !zlen_app. intros (A1 & A2 & A3 & A4 & A5 & A6).
  pose proof (zlen_nonneg (ifuncs b)). pose proof (zlen_nonneg t'). pose proof (zlen_nonneg (map m_64 (imems b))). pose proof (zlen_nonneg (flat_map (idof ids) (itags b))). pose proof (zlen_nonneg g').
  pose proof (sum_pos (import_size s ids) import_size_pos b). repeat split; lia.
Qed.
Lemma imports_ok_app st a b tbs gls : imports_ok st (a ++ b) tbs gls <->
  exists t t' g g', tbs = t ++ t' /\ gls = g ++ g' /\ imports_ok st a t g /\ imports_ok (imp_st st a t g) b t' g'.
Proof.
  unfold imports_ok, ifuncs, itables, imems, itags, iglobs. rewrite !flat_map_app, !Forall_app. fold (ifuncs a) (ifuncs b) (itables a) (itables b) (imems a) (imems b) (itags a) (itags b) (iglobs a) (iglobs b). split.
  - intros ((A1 & A2) & T & (B1 & B2) & (D1 & D2) & H & Fi). apply Forall2_app_inv_l in T. destruct T as (t & t' & T1 & T2 & ->). apply Forall2_app_inv_l in H. destruct H as (g & g' & H1 & H2 & ->).
    exists t, t', g, g'. rewrite imp_st_app. repeat (split; [first [reflexivity|assumption]|]). split; [|repeat (split; [assumption|]); assumption].
    repeat (split; [assumption|]). exact (fits_app _ _ _ _ _ _ _ Fi).
  - intros (t & t' & g & g' & -> & -> & (A1 & A2 & A3 & A4 & A5 & _) & (B1 & B2 & B3 & B4 & B5 & B6)). rewrite imp_st_app in B6.
    repeat split; auto using Forall2_app; apply B6.
Qed.
Lemma imp_here st l t g : here_st st -> here_st (imp_st st l t g). Proof. intros (A & B & D). repeat split; assumption. Qed.
Lemma sized_done size len max st st' : obind (check_max pos len 0 max "count exceeds limit") (fun _ => obind (combine pos (ms_size st) size) (fun n => Done (with_size st n))) = Done st' <->
  len <= max /\ ms_size st + size < 1000000 /\ st' = with_size st (ms_size st + size).
Proof.
  unfold check_max, combine, MAX_TYPE_SIZE. rewrite unit_done, check_done, Bool.andb_true_iff, !Z.leb_le. destruct (ms_size st + size <? 1000000) eqn:E; cbn [obind].
  - apply Z.ltb_lt in E. split; [intros (A & H); injection H as <-|intros (A & B & ->)]; repeat split; auto; lia.
  - apply Z.ltb_ge in E. split; [intros (_ & H); discriminate|lia].
Qed.
Lemma nil_r {A} (l : list A) : l ++ [] = l. Proof. apply app_nil_r. Qed.
Lemma idof_some i : fun_at i <> None -> exists id, nthz ids i = Some id.
Proof. unfold func_at, T. cbn [module_resources r_sub_type_at md_types]. unfold opt_nthz. destruct (nthz ids i); [eauto|congruence]. Qed.
Lemma zsum1 x : sum [x] = x. Proof. unfold sum. cbn [fold_right]. lia. Qed.
Lemma import_one st e st' : here_st st -> fits st -> add_import F G pos st e = Done st' <-> exists t g, imports_ok st [e] t g /\ st' = imp_st st [e] t g.
Proof.
  intros (E1 & E2 & E3) (I1 & I2 & I3 & I4 & I5 & I6).
  assert (HM : res_ok (module_resources s (ms_mod st))) by (apply RES; exact E2).
  destruct st as [s0 [ty fn tb me gl tg el dc re im ex] gi exn sz co fr]. cbn in E1, E2, E3. subst s0 ty fr.
  cbn [ms_mod ms_size md_functions md_tables md_memories md_tags md_globals] in *. unfold imports_ok, fits, imp_st.
  assert (Mt : max_tables F = 100) by (unfold max_tables; rewrite HF by discriminate; reflexivity).
  assert (Mm : max_memories G = 100) by (unfold max_memories; rewrite HG; reflexivity).
  pose proof (func_type_done pos s (mkModul ids fn tb me gl tg el dc re im ex)) as FT. pose proof (func_type_size pos s (mkModul ids fn tb me gl tg el dc re im ex)) as FS.
  pose proof (table_check F G pos HF HG Hpos s (mkModul ids fn tb me gl tg el dc re im ex) HM) as TC. pose proof (tag_check F pos HF s (mkModul ids fn tb me gl tg el dc re im ex)) as GC.
  pose proof (global_check F pos HF Hpos s (mkModul ids fn tb me gl tg el dc re im ex) HM) as VC. pose proof (memory_check F G pos HF HG) as MC. cbn [md_types] in *.
  assert (Z1 : forall A (a : A), zlen [a] = 1) by reflexivity. assert (Z0 : forall A, zlen (@nil A) = 0) by reflexivity.
  Ltac proj := cbn [ms_store ms_mod ms_globals_imported ms_exports ms_size ms_code ms_frozen md_types md_functions md_tables md_memories md_globals md_tags md_elements md_data_count md_references md_imported md_exact_imports with_mod with_imported with_size set_imported set_functions set_tables set_memories set_globals set_tags import_size] in *.
  destruct e as [i|t|t|t|i|i]; cbn [ifuncs itables imems itags iglobs flat_map app exact_from map].
  all: unfold add_import; cbn zeta.
  all: rewrite ?app_nil_r, ?zsum1, ?Z1, ?Z0, ?Z.add_0_r.
  Ltac fin := rewrite ?app_nil_r, ?zlen_app; proj; repeat split; try apply Forall_nil; try apply Forall2_nil; auto; try lia.
  - rewrite obind_done. setoid_rewrite sized_done. proj. split.
    + intros (y & H & L1 & L2 & ->). rewrite <- (FS _ _ H). exists [], []. fin. constructor; [|constructor]. apply FT. eauto.
    + intros (t & g & (P & T & _ & _ & Q & L) & ->). assert (t = []) by (inversion T; reflexivity). assert (g = []) by (inversion Q; reflexivity). subst t g. pose proof (Forall_inv P) as Pi. cbn beta in Pi. apply FT in Pi. destruct Pi as [y Hy]. rewrite <- (FS _ _ Hy). rewrite <- (FS _ _ Hy) in L.
      exists y. split; [exact Hy|]. proj; rewrite ?zlen_app, ?Z1 in L. unfold MAX_FUNCTIONS. fin.
  - rewrite obind_done. setoid_rewrite sized_done. proj. rewrite Mt. split.
    + intros (y & H & L1 & L2 & ->). exists [y], []. fin. constructor; [|constructor]. apply TC. exact H.
    + intros (x & g & (_ & T & _ & _ & Q & L) & ->). inversion T as [|? y ? ? P T' E1 E2]. inversion T'; subst. inversion Q; subst g. exists y. split; [apply TC; exact P|]. proj; rewrite ?zlen_app, ?Z1 in L. fin.
  - rewrite obind_done. setoid_rewrite sized_done. proj. rewrite Mm. split.
    + intros (y & H & L1 & L2 & ->). apply MC in H. destruct H as [H ->]. exists [], []. fin.
    + intros (x & g & (_ & T & P & _ & Q & L) & ->). inversion T. inversion Q; subst. inversion P; subst. exists (m_64 t). split; [apply MC; auto|]. proj; rewrite ?zlen_app, ?Z1 in L. fin.
  - rewrite obind_done. setoid_rewrite unit_done. setoid_rewrite sized_done. proj. split.
    + intros (y & H & _ & L1 & L2 & ->). exists [], [y]. fin. constructor; [|constructor]. apply VC. exact H.
    + intros (x & g & (_ & T & _ & _ & Q & L) & ->). inversion T. inversion Q as [|? y ? ? P T' E1 E2]. inversion T'; subst. exists y. split; [apply VC; exact P|]. proj; rewrite ?zlen_app, ?Z1 in L. rewrite needm_done by exact HG. unfold MAX_GLOBALS. fin. destruct (g_mut t); reflexivity.
  - rewrite unit_done. cbn [ms_mod ms_store]. rewrite GC, obind_done. setoid_rewrite obind_done. setoid_rewrite sized_done. proj. unfold idof. split.
    + intros (P & id & Hid & y & H & L1 & L2 & ->). rewrite <- (FS _ _ H). exists [], []. unfold must in Hid. destruct (nthz ids i); [|discriminate]. injection Hid as ->. fin.
    + intros (t & g & (_ & T & _ & P & Q & L) & ->). assert (t = []) by (inversion T; reflexivity). assert (g = []) by (inversion Q; reflexivity). subst t g. pose proof (Forall_inv P) as Pi. cbn beta in Pi. split; [exact Pi|]. destruct (idof_some i Pi) as [id Hid]. apply FT in Pi. destruct Pi as [y Hy]. rewrite <- (FS _ _ Hy). rewrite <- (FS _ _ Hy) in L.
      rewrite Hid in *. exists id. split; [reflexivity|]. exists y. split; [exact Hy|]. proj; rewrite ?zlen_app, ?Z1 in L. unfold MAX_TAGS. fin.
  - rewrite obind_done. setoid_rewrite sized_done. proj. split.
    + intros (y & H & L1 & L2 & ->). rewrite <- (FS _ _ H). exists [], []. fin. constructor; [|constructor]. apply FT. eauto.
    + intros (t & g & (P & T & _ & _ & Q & L) & ->). assert (t = []) by (inversion T; reflexivity). assert (g = []) by (inversion Q; reflexivity). subst t g. pose proof (Forall_inv P) as Pi. cbn beta in Pi. apply FT in Pi. destruct Pi as [y Hy]. rewrite <- (FS _ _ Hy). rewrite <- (FS _ _ Hy) in L.
      exists y. split; [exact Hy|]. proj; rewrite ?zlen_app, ?Z1 in L. unfold MAX_FUNCTIONS. fin.
Qed.
Lemma imp_st_nil st : imp_st st [] [] [] = st.
Proof. destruct st as [s0 [] gi exn sz co fr]. unfold imp_st. cbn. rewrite !app_nil_r, !Z.add_0_r. reflexivity. Qed.
Lemma imports_flat : forall l st st', here_st st -> fits st ->
  each (add_import F G pos) st l = Done st' <-> exists t g, imports_ok st l t g /\ st' = imp_st st l t g.
Proof.
  induction l as [|e l IH]; intros st st' Hh Hf; cbn [each].
  - split.
    + intros H. injection H as <-. exists [], []. rewrite imp_st_nil. split; [|reflexivity]. unfold imports_ok. rewrite imp_st_nil. cbn. repeat (split; [constructor|]). exact Hf.
    + intros (t & g & (_ & T & _ & _ & Q & _) & ->). assert (t = []) by (inversion T; reflexivity). assert (g = []) by (inversion Q; reflexivity). subst. rewrite imp_st_nil. reflexivity.
  - rewrite obind_done. setoid_rewrite (import_one st e _ Hh Hf). change (e :: l) with ([e] ++ l). setoid_rewrite imports_ok_app. split.
    + intros (st1 & (t & g & K & ->) & H). apply IH in H; [|apply imp_here; exact Hh|apply K]. destruct H as (t' & g' & K' & ->).
      exists (t ++ t'), (g ++ g'). rewrite imp_st_app. split; [|reflexivity]. exists t, t', g, g'. auto.
    + intros (tt & gg & (t & t' & g & g' & -> & -> & K & K') & ->). exists (imp_st st [e] t g). split; [eauto|]. apply IH; [apply imp_here; exact Hh|apply K|].
      exists t', g'. rewrite imp_st_app. auto.
Qed.
Lemma imports_each l gs st st' : all_some (d_imports ft pos) l = Some gs -> here_st st -> fits st ->
  each (add_imports F G ft pos) st l = Done st' <-> exists t g, imports_ok st (List.concat gs) t g /\ st' = imp_st st (List.concat gs) t g.
Proof.
  intros Hd Hh Hf. rewrite <- (imports_flat _ _ _ Hh Hf). clear Hf. revert gs Hd st Hh. induction l as [|i l IH]; intros gs Hd st Hh; cbn [all_some] in Hd.
  - injection Hd as <-. reflexivity.
  - destruct (d_imports ft pos i) as [g|] eqn:Ei; [|discriminate]. destruct (all_some (d_imports ft pos) l) as [gs'|] eqn:El; [|discriminate]. injection Hd as <-. cbn [each List.concat]. rewrite each_app.
    unfold add_imports at 1, assert_mut. rewrite (proj2 (proj2 Hh)). cbn [obind]. unfold d_imports, opt_of in Ei. destruct (flatten_imports ft pos i) as [x|]; [|discriminate]. injection Ei as <-. cbn [of_read obind].
    assert (E : forall l st, each (fun st x => add_import F G pos st (snd x)) st l = each (add_import F G pos) st (map (@snd (list Z * list Z) p_entity) l)).
    { clear. induction l as [|a l IH]; intros st; cbn [each map]; [reflexivity|]. destruct (add_import F G pos st (snd a)); cbn [obind]; auto. }
    rewrite E. rewrite !obind_done.
    assert (Hs : forall l st0 st1, here_st st0 -> each (add_import F G pos) st0 l = Done st1 -> here_st st1).
    { clear. induction l as [|e l IH]; intros st0 st1 H K; cbn [each] in K; [congruence|]. apply obind_done in K. destruct K as (st2 & K1 & K2). refine (IH _ _ _ K2). clear K2.
      destruct H as (A & B & D). destruct st0 as [s0 [] gi exn sz co fr]. unfold add_import in K1. destruct e; cbn zeta in K1;
        repeat (apply obind_done in K1; destruct K1 as (? & ? & K1)); injection K1 as <-; repeat split; assumption. }
    split; intros (st1 & K1 & K2); exists st1; (split; [exact K1|]); apply (IH gs' eq_refl st1 (Hs _ _ _ Hh K1)); exact K2.
Qed.

(** ** Functions, memories, tags *)
Definition add_fns (st : mstate) (l : list Z) := with_mod st (set_functions (ms_mod st) (md_functions (ms_mod st) ++ l)).
Definition add_mems (st : mstate) (l : list memory_ty) := with_mod st (set_memories (ms_mod st) (md_memories (ms_mod st) ++ map m_64 l)).
Definition add_tgs (st : mstate) (l : list Z) := with_mod st (set_tags (ms_mod st) (md_tags (ms_mod st) ++ flat_map (idof ids) l)).
Ltac start_st st := destruct st as [s0 [ty fn tb me gl tg el dc re im ex] gi exn sz co fr].
Lemma functions_each : forall l st st', here_st st -> each (add_function pos) st l = Done st' <-> Forall (fun i => fun_at i <> None) l /\ st' = add_fns st l.
Proof.
  induction l as [|i l IH]; intros st st' Hh; cbn [each].
  - start_st st. unfold add_fns, with_mod, set_functions. cbn. rewrite app_nil_r. split; [intros H; injection H as <-; auto|intros [_ ->]; reflexivity].
  - unfold add_function at 1, assert_mut. destruct Hh as (A & B & D). rewrite D. cbn [obind]. rewrite obind_done. setoid_rewrite obind_done. rewrite A.
    pose proof (func_type_done pos s (ms_mod st) i) as FT. rewrite B in FT. rewrite Forall_cons_iff, <- FT. split.
    + intros (st1 & (y & Hy & E) & H). injection E as <-. apply IH in H; [|repeat split; assumption]. destruct H as [H ->]. split; [eauto|].
      start_st st. unfold add_fns, with_mod, set_functions. cbn. rewrite <- app_assoc. reflexivity.
    + intros (((y & Hy) & H) & ->). eexists. split; [exists y; split; [exact Hy|reflexivity]|]. apply IH; [repeat split; assumption|]. split; [exact H|].
      start_st st. unfold add_fns, with_mod, set_functions. cbn. rewrite <- app_assoc. reflexivity.
Qed.
Lemma memories_each : forall l st st', here_st st -> each (add_memory F G pos) st l = Done st' <-> Forall memory_ok l /\ st' = add_mems st l.
Proof.
  induction l as [|i l IH]; intros st st' Hh; cbn [each].
  - start_st st. unfold add_mems, with_mod, set_memories. cbn. rewrite app_nil_r. split; [intros H; injection H as <-; auto|intros [_ ->]; reflexivity].
  - unfold add_memory at 1, assert_mut. destruct Hh as (A & B & D). rewrite D. cbn [obind]. rewrite obind_done. setoid_rewrite obind_done.
    setoid_rewrite (memory_check F G pos HF HG). rewrite Forall_cons_iff. split.
    + intros (st1 & (y & [Hy ->] & E) & H). injection E as <-. apply IH in H; [|repeat split; assumption]. destruct H as [H ->]. split; [eauto|].
      start_st st. unfold add_mems, with_mod, set_memories. cbn. rewrite <- app_assoc. reflexivity.
    + intros ((Hy & H) & ->). eexists. split; [exists (m_64 i); split; [auto|reflexivity]|]. apply IH; [repeat split; assumption|]. split; [exact H|].
      start_st st. unfold add_mems, with_mod, set_memories. cbn. rewrite <- app_assoc. reflexivity.
Qed.
Lemma tags_each : forall l st st', here_st st -> each (add_tag F pos) st l = Done st' <-> Forall (fun i => fun_at i <> None) l /\ st' = add_tgs st l.
Proof.
  induction l as [|i l IH]; intros st st' Hh; cbn [each].
  - start_st st. unfold add_tgs, with_mod, set_tags. cbn. rewrite app_nil_r. split; [intros H; injection H as <-; auto|intros [_ ->]; reflexivity].
  - unfold add_tag at 1, assert_mut. pose proof Hh as (A & B & D). rewrite D. cbn [obind]. rewrite obind_done. setoid_rewrite unit_done. rewrite A.
    pose proof (tag_check F pos HF s (ms_mod st) i) as TC. rewrite B in TC. setoid_rewrite TC. setoid_rewrite obind_done. rewrite B, Forall_cons_iff. split.
    + intros (st1 & (P & id & Hid & E) & H). injection E as <-. apply IH in H; [|repeat split; assumption]. destruct H as [H ->]. split; [auto|].
      unfold must in Hid. destruct (nthz ids i) eqn:Ei; [|discriminate]. injection Hid as ->.
      start_st st. unfold add_tgs, with_mod, set_tags. cbn. rewrite <- app_assoc. unfold idof at 2. rewrite Ei. reflexivity.
    + intros ((P & H) & ->). destruct (idof_some i P) as [id Hid]. rewrite Hid. eexists. split; [split; [exact P|]; exists id; split; reflexivity|]. apply IH; [repeat split; assumption|]. split; [exact H|].
      start_st st. unfold add_tgs, with_mod, set_tags. cbn. rewrite <- app_assoc. unfold idof at 1. rewrite Hid. reflexivity.
Qed.
End Stages.
