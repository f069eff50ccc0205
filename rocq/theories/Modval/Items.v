(** The sections with expressions, the exports, the start function and the bodies. *)
From Verif.Base Require Import Prelude.
From Verif.Reader Require Import Model.
From Verif.Types Require Import RefModel CodecModel EntityModel CanonModel CanonSpec CanonLemmas CanonTop.
From Verif.Instr Require Import ImmModel Ops BodyModel.
From Verif.Sections Require Import SegModel.
From Verif.Validator Require Import State Checks Visit Api Body TypeSpec TypeFunc Module ModuleRes.
From Verif.Modval Require Import Model Spec Const Entities Stages.

(** What sections leave behind, besides types of entities. *)
Definition grow (st : mstate) (tb : list tblty) (gl : list glbty) (el : list rf) (re : list Z) : mstate :=
  let m := ms_mod st in
  with_mod st (mkModul (md_types m) (md_functions m) (md_tables m ++ tb) (md_memories m) (md_globals m ++ gl) (md_tags m) (md_elements m ++ el) (md_data_count m)
    (md_references m ++ re) (md_imported m) (md_exact_imports m)).
Lemma grow_nil st : grow st [] [] [] [] = st.
Proof. destruct st as [s [] gi exn sz co fr]. unfold grow, with_mod. cbn. rewrite !app_nil_r. reflexivity. Qed.
Lemma grow_app st a b d e a' b' d' e' : grow (grow st a b d e) a' b' d' e' = grow st (a ++ a') (b ++ b') (d ++ d') (e ++ e').
Proof. unfold grow, with_mod. cbn. rewrite <- !app_assoc. reflexivity. Qed.
Lemma grow_refer st l : refer st l = grow st [] [] [] l.
Proof. destruct st as [s [] gi exn sz co fr]. unfold grow, refer, with_mod, set_references. cbn. rewrite !app_nil_r. reflexivity. Qed.
Lemma Forall2_and {A B} (P Q : A -> B -> Prop) l m : Forall2 (fun a b => P a b /\ Q a b) l m <-> Forall2 P l m /\ Forall2 Q l m.
Proof.
  split.
  - induction 1 as [|a b l m [H1 H2] _ [I1 I2]]; split; constructor; assumption.
  - intros [H K]. revert K. induction H as [|a b l m Hab _ IH]; intros K; inversion K; subst; constructor; auto.
Qed.
Lemma Forall2_map_l {A B X} (f : A -> B) (P : B -> X -> Prop) l m : Forall2 P (map f l) m <-> Forall2 (fun a x => P (f a) x) l m.
Proof.
  revert m. induction l as [|a l IH]; intros m; cbn [map]; split; intros H; inversion H; subst; constructor; auto; apply IH; assumption.
Qed.

Section Items.
Variable F : feature -> bool.
Variable G : m_feature -> bool.
Variable ft : features.
Variable pos : Z.
Hypothesis HF : forall f, f <> f_custom_descriptors -> F f = true.
Hypothesis HG : forall g, G g = true.
Hypothesis Hpos : 0 < pos.
Notation exact := (F f_custom_descriptors).
Variable s : store.
Variable ids : list Z.
Hypothesis RES : forall m, md_types m = ids -> res_ok (module_resources s m).
Notation fun_at := (func_at s ids).
Variable c : contents.
Hypothesis FNS : Forall (fun i => fun_at i <> None) (functions c).
Definition sees (st : mstate) (g : list glbty) : Prop := ms_store st = s /\
  cmod (ms_mod st) (references c) = mkModul ids (functions c) [] [] g [] [] None (references c) (imported_functions c) (exact_from 0 (imports c)).
Lemma sees_types st g : sees st g -> md_types (ms_mod st) = ids.
Proof. intros [_ H]. apply (f_equal md_types) in H. exact H. Qed.
Lemma sees_functions st g : sees st g -> md_functions (ms_mod st) = functions c.
Proof. intros [_ H]. apply (f_equal md_functions) in H. exact H. Qed.
Lemma sees_globals st g : sees st g -> md_globals (ms_mod st) = g.
Proof. intros [_ H]. apply (f_equal md_globals) in H. exact H. Qed.
Lemma sees_grow st g tb gl el re : sees st g -> sees (grow st tb gl el re) (g ++ gl).
Proof.
  intros [A B]. split; [exact A|]. destruct st as [s0 [] gi exn sz co fr]. unfold cmod in *. cbn in *. injection B as -> -> -> -> ->. reflexivity.
Qed.
Lemma sees_grow_same st g tb el re : sees st g -> sees (grow st tb [] el re) g.
Proof. intros H. apply (sees_grow _ _ tb [] el re) in H. rewrite app_nil_r in H. exact H. Qed.
(** An expression that can be read and consists of operators with a rule. *)
Definition e_ok (b : list Z) (ops : list operator) : Prop :=
  bytes_ok b /\ d_expr ft pos b = Some ops /\ forallb has_rule ops = true /\ incl (expr_refs ops) (references c).
Notation CM g := (const_mod s ids c g).
Lemma const_at st g b ops t : sees st g -> e_ok b ops -> (ms_frozen st = true -> is_ref t = false) -> forall st',
  check_const F G ft pos st b t = Done st' <-> const_ok exact (CM g) t ops /\ st' = grow st [] [] [] (expr_refs ops).
Proof.
  intros [S1 S2] (B & D & R & I) Fr st'. rewrite <- grow_refer. pose proof (check_const_iff F G ft pos HF HG Hpos st b t (references c) ops) as H. cbv zeta in H. rewrite S1, S2 in H. fold (CM g) in H.
  apply H; auto. apply RES. reflexivity.
Qed.
(** A number is computed without references to functions. *)
Lemma const_number g t ops : const_ok exact (CM g) t ops -> is_ref t = false -> expr_refs ops = [].
Proof.
  intros (Kc & es & xs & -> & Hes) Ht. refine (number_no_refs (cctx (CM g) F t) es xs t _ Hes _ Ht); [apply RES; reflexivity|].
  apply Forall_app in Kc. destruct Kc as [Kc _]. apply forallb_forall. intros o Ho. exact (const_op_cop _ _ (proj1 (Forall_forall _ _) Kc o Ho)).
Qed.

(** ** Tables *)
Definition r_table (a : p_table_def) (d : table_def) : Prop :=
  ptd_ty a = td_ty d /\ match ptd_init a, td_init d with None, None => True | Some b, Some e => e_ok b e | _, _ => False end.
Definition init_ok (g : list glbty) (d : table_def) (x : tblty) : Prop :=
  match td_init d with None => rt_null (tb_elem x) = true | Some e => const_ok exact (CM g) (VRef (tb_elem x)) e end.
Lemma tables_each g l ds st st' : Forall2 r_table l ds -> sees st g -> ms_frozen st = false ->
  each (add_table F G ft pos) st l = Done st' <->
  exists xs, (Forall2 (table_ok exact s ids) (map td_ty ds) xs /\ Forall2 (init_ok g) ds xs) /\ st' = grow st xs [] [] (flat_map table_refs ds).
Proof.
  intros R S Fr. setoid_rewrite Forall2_map_l. setoid_rewrite <- Forall2_and.
  apply (each_iff _ r_table _ (fun st ds xs => grow st xs [] [] (flat_map table_refs ds)) (fun st => sees st g /\ ms_frozen st = false)); auto.
  - intros st0. apply grow_nil.
  - intros st0 a x l0 xs. cbn [flat_map]. rewrite grow_app, (app_nil_r (table_refs a)). reflexivity.
  - intros st0 a x [H1 H2] _. split; [apply sees_grow_same; exact H1|exact H2].
  - clear R S Fr st st' l ds. intros st a d st' [S Fr] [E1 E2]. unfold add_table. rewrite obind_done. rewrite (proj1 S), E1.
    assert (HM : res_ok (module_resources s (ms_mod st))) by (apply RES, (sees_types _ _ S)).
    pose proof (table_check F G pos HF HG Hpos s (ms_mod st) HM) as TC. rewrite (sees_types _ _ S) in TC. setoid_rewrite TC. unfold init_ok. cbn [flat_map]. rewrite app_nil_r.
    assert (Fin : forall y st1, ms_frozen st1 = false -> obind (assert_mut st1) (fun _ => Done (with_mod st1 (set_tables (ms_mod st1) (md_tables (ms_mod st1) ++ [y])))) = Done (grow st1 [y] [] [] [])).
    { intros y st1 E. unfold assert_mut. rewrite E. cbn [obind]. destruct st1 as [s1 [] ? ? ? ? ?]. unfold grow, with_mod, set_tables. cbn. rewrite !app_nil_r. reflexivity. }
    unfold table_refs. destruct (ptd_init a) as [b|], (td_init d) as [e|]; try contradiction.
    + rewrite need_done by (exact HF || discriminate). cbn [obind]. setoid_rewrite obind_done.
      assert (CA : forall t st1, check_const F G ft pos st b t = Done st1 <-> const_ok exact (CM g) t e /\ st1 = grow st [] [] [] (expr_refs e)) by (intros; apply const_at; auto; congruence).
      setoid_rewrite CA. split.
      * intros (y & Hy & st1 & (K & ->) & H). rewrite Fin in H by exact Fr. injection H as <-. exists y. split; [auto|]. rewrite grow_app. cbn [app]. rewrite app_nil_r. reflexivity.
      * intros (y & (Hy & K) & ->). exists y. split; [exact Hy|]. eexists. split; [split; [exact K|reflexivity]|]. rewrite Fin by exact Fr. rewrite grow_app. cbn [app]. rewrite app_nil_r. reflexivity.
    + split.
      * intros (y & Hy & H). apply obind_done in H. destruct H as (st1 & K & H). apply unit_done in K. destruct K as [K E]. apply check_done in K. injection E as <-.
        rewrite Fin in H by exact Fr. injection H as <-. exists y. auto.
      * intros (y & (Hy & K) & ->). exists y. split; [exact Hy|]. apply obind_done. exists st. split; [apply unit_done; split; [apply check_done; exact K|reflexivity]|]. apply Fin. exact Fr.
Qed.

(** ** Globals: each sees those before *)
Definition r_global (a : p_global_def) (d : global_def) : Prop := pgd_ty a = gd_ty d /\ e_ok (pgd_init a) (gd_init d).
Fixpoint inits_ok (g : list glbty) (ds : list global_def) (xs : list glbty) : Prop :=
  match ds, xs with
  | d :: ds, x :: xs => const_ok exact (CM g) (gl_ty x) (gd_init d) /\ inits_ok (g ++ [x]) ds xs
  | _, _ => True
  end.
Lemma globals_each : forall l ds, Forall2 r_global l ds -> forall g st st', sees st g -> ms_frozen st = false ->
  each (add_global F G ft pos) st l = Done st' <->
  exists xs, (Forall2 (global_ok exact s ids) (map gd_ty ds) xs /\ inits_ok g ds xs) /\ st' = grow st [] xs [] (flat_map (fun d => expr_refs (gd_init d)) ds).
Proof.
  induction 1 as [|a d l ds [E1 E2] _ IH]; intros g st st' S Fr; cbn [each map flat_map].
  - split; [intros H; injection H as <-; exists []; split; [split; [constructor|exact I]|symmetry; apply grow_nil]|]. intros (xs & (H & _) & ->). inversion H; subst. rewrite grow_nil. reflexivity.
  - rewrite obind_done. unfold add_global at 1. setoid_rewrite obind_done. rewrite (proj1 S), E1.
    assert (HM : res_ok (module_resources s (ms_mod st))) by (apply RES, (sees_types _ _ S)).
    pose proof (global_check F pos HF Hpos s (ms_mod st) HM) as TC. rewrite (sees_types _ _ S) in TC. setoid_rewrite TC.
    assert (CA : forall t st1, check_const F G ft pos st (pgd_init a) t = Done st1 <-> const_ok exact (CM g) t (gd_init d) /\ st1 = grow st [] [] [] (expr_refs (gd_init d))) by (intros; apply const_at; auto; congruence).
    setoid_rewrite obind_done. setoid_rewrite CA.
    assert (Fin : forall y, obind (assert_mut (grow st [] [] [] (expr_refs (gd_init d)))) (fun _ => Done (with_mod (grow st [] [] [] (expr_refs (gd_init d))) (set_globals (ms_mod (grow st [] [] [] (expr_refs (gd_init d)))) (md_globals (ms_mod (grow st [] [] [] (expr_refs (gd_init d)))) ++ [y])))) = Done (grow st [] [y] [] (expr_refs (gd_init d)))).
    { intros y. unfold assert_mut. change (ms_frozen (grow st [] [] [] (expr_refs (gd_init d)))) with (ms_frozen st). rewrite Fr. cbn [obind]. destruct st as [s1 [] ? ? ? ? ?]. unfold grow, with_mod, set_globals. cbn. rewrite !app_nil_r. reflexivity. }
    split.
    + intros (st1 & (y & Hy & st2 & (K & ->) & H) & L). rewrite Fin in H. injection H as <-. apply (IH (g ++ [y])) in L; [|apply sees_grow; exact S|exact Fr].
      destruct L as (xs & (L1 & L2) & ->). exists (y :: xs). rewrite grow_app. cbn [app inits_ok]. split; [split; [constructor; assumption|auto]|reflexivity].
    + intros (xs & (L1 & L2) & ->). inversion L1 as [|? y ? ys Hy Hys]; subst. cbn [inits_ok] in L2. destruct L2 as [K L2].
      eexists. split; [exists y; split; [exact Hy|]; eexists; split; [split; [exact K|reflexivity]|apply Fin]|].
      apply (IH (g ++ [y])); [apply sees_grow; exact S|exact Fr|]. exists ys. split; [auto|]. rewrite grow_app. reflexivity.
Qed.
Lemma inits_nth : forall ds xs g, List.length ds = List.length xs -> (inits_ok g ds xs <->
  forall k d x, nth_error ds k = Some d -> nth_error xs k = Some x -> const_ok exact (CM (g ++ firstn k xs)) (gl_ty x) (gd_init d)).
Proof.
  induction ds as [|d ds IH]; intros [|x xs] g L; try discriminate L; cbn [inits_ok].
  - split; [intros _ [|k] d x H; discriminate|auto].
  - rewrite IH by (injection L as L; exact L). split.
    + intros [K H] [|k] d' x' E1 E2; cbn [nth_error firstn] in *; [injection E1 as <-; injection E2 as <-; rewrite app_nil_r; exact K|].
      specialize (H k d' x' E1 E2). rewrite <- app_assoc in H. exact H.
    + intros H. split; [specialize (H 0%nat d x eq_refl eq_refl); cbn [firstn] in H; rewrite app_nil_r in H; exact H|].
      intros k d' x' E1 E2. specialize (H (Datatypes.S k) d' x' E1 E2). cbn [firstn] in H. rewrite <- app_assoc. exact H.
Qed.

(** ** Exports *)
Variable tables : list tblty.
Variable globals : list glbty.
Hypothesis TAGS : Forall (fun i => fun_at i <> None) (tag_types c).
Definition complete (st : mstate) : Prop := sees st globals /\ md_tables (ms_mod st) = tables /\ md_memories (ms_mod st) = map m_64 (memory_types c) /\
  md_tags (ms_mod st) = flat_map (idof ids) (tag_types c).
Lemma complete_grow st el re : complete st -> complete (grow st [] [] el re).
Proof. intros (A & B & D & E). split; [apply sees_grow_same; exact A|]. unfold grow. cbn. rewrite app_nil_r. auto. Qed.
Lemma nthz_bound {A} (l : list A) i : (exists a, nthz l i = Some a) <-> 0 <= i < zlen l.
Proof.
  split; [intros (a & H); eapply nthz_some; exact H|]. intros H. unfold nthz, zlen in *. destruct (i <? 0) eqn:E; [apply Z.ltb_lt in E; lia|].
  destruct (nth_error l (Z.to_nat i)) eqn:N; [eauto|]. apply nth_error_None in N. lia.
Qed.
Lemma nthz_map {A B} (f : A -> B) l i : nthz (map f l) i = match nthz l i with Some a => Some (f a) | None => None end.
Proof. unfold nthz. destruct (i <? 0); [reflexivity|]. rewrite nth_error_map. destruct (nth_error l (Z.to_nat i)); reflexivity. Qed.
Lemma nthz_tags : forall l, Forall (fun i => fun_at i <> None) l -> forall i, nthz (flat_map (idof ids) l) i = match nthz l i with Some t => nthz ids t | None => None end.
Proof.
  intros l H i. unfold nthz. destruct (i <? 0); [reflexivity|]. generalize (Z.to_nat i) as n. clear i. induction H as [|t l Ht _ IH]; intros n; cbn [flat_map].
  - destruct n; reflexivity.
  - destruct (idof_some s ids t Ht) as [id Hid]. unfold idof at 1. rewrite Hid. cbn [app]. destruct n as [|n]; cbn [nth_error]; [symmetry; exact Hid|apply IH].
Qed.
Lemma at_func i t : nthz (functions c) i = Some t -> exists id ty ps rs, nthz ids t = Some id /\ nthz (st_types s) id = Some ty /\ c_inner (s_comp ty) = IFunc ps rs /\ func_size (ps, rs) = type_size s ids t.
Proof.
  intros H. assert (P : fun_at t <> None). { eapply (proj1 (Forall_forall _ _)) in FNS; [exact FNS|]. unfold nthz in H. destruct (i <? 0); [discriminate|]. eapply nth_error_In. exact H. }
  apply (func_type_done pos s (mkModul ids [] [] [] [] [] [] None [] 0 [])) in P. destruct P as [[ps rs] P]. pose proof (func_type_size _ _ _ _ _ P) as Z. cbn [md_types] in Z.
  unfold func_type, id_at in P. cbn [md_types] in P. destruct (nthz ids t) as [id|]; [|discriminate]. cbn [obind] in P. destruct (nthz (st_types s) id) as [ty|] eqn:Et; [|discriminate].
  destruct (c_inner (s_comp ty)) as [ps' rs'| | |] eqn:Ei; try discriminate. injection P as -> ->. exists id, ty, ps, rs. auto.
Qed.
Lemma at_tag i t : nthz (tag_types c) i = Some t -> exists id ty ps rs, nthz ids t = Some id /\ nthz (st_types s) id = Some ty /\ c_inner (s_comp ty) = IFunc ps rs /\ func_size (ps, rs) = type_size s ids t.
Proof.
  intros H. assert (P : fun_at t <> None). { eapply (proj1 (Forall_forall _ _)) in TAGS; [exact TAGS|]. unfold nthz in H. destruct (i <? 0); [discriminate|]. eapply nth_error_In. exact H. }
  apply (func_type_done pos s (mkModul ids [] [] [] [] [] [] None [] 0 [])) in P. destruct P as [[ps rs] P]. pose proof (func_type_size _ _ _ _ _ P) as Z. cbn [md_types] in Z.
  unfold func_type, id_at in P. cbn [md_types] in P. destruct (nthz ids t) as [id|]; [|discriminate]. cbn [obind] in P. destruct (nthz (st_types s) id) as [ty|] eqn:Et; [|discriminate].
  destruct (c_inner (s_comp ty)) as [ps' rs'| | |] eqn:Ei; try discriminate. injection P as -> ->. exists id, ty, ps, rs. auto.
Qed.
Lemma export_entity_iff st x : complete st -> forall st1 z, (exists b, export_entity pos st (px_kind x) (px_index x) = Done (st1, z, b)) <->
  export_ok c tables globals x /\ st1 = grow st [] [] [] (export_refs x) /\ z = export_size s ids c x.
Proof.
  intros (S & Et & Em & Eg) st1 z. unfold export_entity. rewrite (sees_types _ _ S), (sees_functions _ _ S), (sees_globals _ _ S), (proj1 S), Et, Em, Eg.
  unfold export_ok, export_refs, export_size, in_bounds. destruct x as [n k i]. cbn [px_kind px_index].
  assert (Fn : (exists b, obind (match nthz (functions c) i with Some a => Done a | None => fail pos "exported index out of bounds" end)
     (fun t => obind (must (nthz ids t)) (fun id => obind (must (nthz (st_types s) id)) (fun ty => match c_inner (s_comp ty) with IFunc ps rs => Done (add_reference st i, func_size (ps, rs), false) | _ => Panicked end))) = Done (st1, z, b)) <->
     0 <= i < zlen (functions c) /\ st1 = grow st [] [] [] [i] /\ z = match nthz (functions c) i with Some t => type_size s ids t | None => 0 end).
  { rewrite <- nthz_bound. destruct (nthz (functions c) i) as [t|] eqn:E; cbn [obind].
    - destruct (at_func i t E) as (id & ty & ps & rs & -> & Ety & Ei & Es). cbn [must obind]. rewrite Ety. cbn [must obind]. rewrite Ei, Es, <- grow_refer. split.
      + intros (b & H). injection H as <- <- <-. split; [eauto|]. split; reflexivity.
      + intros (_ & -> & ->). exists false. reflexivity.
    - split; [intros (b & H); discriminate|]. intros ((a & H) & _). discriminate. }
  assert (Ot : forall A (l : list A) (f : A -> bool), (exists b, obind (match nthz l i with Some a => Done a | None => fail pos "exported index out of bounds" end) (fun a => Done (st, 1, f a)) = Done (st1, z, b)) <->
     0 <= i < zlen l /\ st1 = grow st [] [] [] [] /\ z = 1).
  { intros A l f. rewrite <- nthz_bound, grow_nil. destruct (nthz l i) as [t|] eqn:E; cbn [obind].
    - split; [intros (b & H); injection H as <- <- <-; split; [eauto|auto]|]. intros (_ & -> & ->). eauto.
    - split; [intros (b & H); discriminate|]. intros ((a & H) & _). discriminate. }
  destruct k.
  - exact Fn.
  - apply (Ot _ tables (fun _ => false)).
  - rewrite (Ot _ (map m_64 (memory_types c)) (fun _ => false)). unfold zlen. rewrite map_length. reflexivity.
  - apply (Ot _ globals gl_mut).
  - rewrite (nthz_tags _ TAGS), <- nthz_bound, grow_nil. destruct (nthz (tag_types c) i) as [t|] eqn:E.
    + destruct (at_tag i t E) as (id & ty & ps & rs & -> & Ety & Ei & Es). cbn [obind]. rewrite Ety. cbn [must obind]. rewrite Ei, Es. split.
      * intros (b & H). injection H as <- <- <-. split; [eauto|]. split; reflexivity.
      * intros (_ & -> & ->). exists false. reflexivity.
    + cbn [obind]. split; [intros (b & H); discriminate|]. intros ((a & H) & _). discriminate.
  - exact Fn.
Qed.
Definition exported (st : mstate) (l : list p_export) : mstate :=
  with_exports (with_size (grow st [] [] [] (flat_map export_refs l)) (ms_size st + sum (map (export_size s ids c) l))) (ms_exports st ++ map px_name l).
Lemma exported_nil st : exported st [] = st.
Proof. unfold exported. cbn [flat_map map]. rewrite grow_nil. destruct st as [s0 [] gi exn sz co fr]. unfold with_exports, with_size. cbn. rewrite app_nil_r, Z.add_0_r. reflexivity. Qed.
Lemma exported_cons st x l : exported (exported st [x]) l = exported st (x :: l).
Proof. unfold exported, grow, with_exports, with_size, with_mod. cbn. rewrite !app_nil_r, <- !app_assoc. f_equal. unfold sum. cbn [fold_right]. lia. Qed.
Lemma exported_complete st l : complete st -> complete (exported st l).
Proof. intros H. apply (complete_grow _ [] (flat_map export_refs l)) in H. exact H. Qed.
Lemma name_in n l : existsb (name_eqb n) l = false <-> ~ In n l.
Proof.
  rewrite <- Bool.not_true_iff_false, existsb_exists. split; intros H K; apply H.
  - exists n. split; [exact K|]. unfold name_eqb. destruct (list_eq_dec Z.eq_dec n n); congruence.
  - destruct K as (x & K & E). unfold name_eqb in E. destruct (list_eq_dec Z.eq_dec n x); [subst; exact K|discriminate].
Qed.
Lemma export_size_pos x : 0 <= export_size s ids c x.
Proof.
  assert (P : forall t, 0 <= type_size s ids t) by (intros t; unfold type_size; destruct (fun_at t) as [[ps rs]|]; [pose proof (zlen_nonneg ps); pose proof (zlen_nonneg rs)|]; lia).
  unfold export_size. destruct (px_kind x); try lia; destruct (nthz _ _); try lia; apply P.
Qed.
Lemma export_one st x st' : complete st -> ms_frozen st = false ->
  add_export G pos st x = Done st' <-> export_ok c tables globals x /\ ~ In (px_name x) (ms_exports st) /\ ms_size st + export_size s ids c x < 1000000 /\ st' = exported st [x].
Proof.
  intros Hc Fr. unfold add_export, assert_mut. rewrite Fr. cbn [obind]. rewrite obind_done.
  assert (Fin : (if existsb (name_eqb (px_name x)) (ms_exports st) then fail pos "duplicate export name already defined" else Done (exported st [x])) = Done st' <-> ~ In (px_name x) (ms_exports st) /\ st' = exported st [x]).
  { rewrite <- name_in. destruct (existsb _ _); unfold fail; split; [discriminate|intros [H _]; discriminate|intros H; injection H as <-; auto|intros [_ ->]; reflexivity]. }
  assert (Ex : with_exports (with_size (grow st [] [] [] (export_refs x)) (ms_size st + export_size s ids c x)) (ms_exports st ++ [px_name x]) = exported st [x]).
  { unfold exported. cbn [flat_map map]. rewrite app_nil_r. unfold sum. cbn [fold_right]. rewrite Z.add_0_r. reflexivity. }
  split.
  - intros ([[st1 z] b] & H1 & H2). destruct (proj1 (export_entity_iff st x Hc st1 z) (ex_intro _ b H1)) as (K1 & -> & ->).
    apply unit_done in H2. destruct H2 as [_ H2]. unfold combine in H2. change (ms_size (grow st [] [] [] (export_refs x))) with (ms_size st) in H2. change (ms_exports (grow st [] [] [] (export_refs x))) with (ms_exports st) in H2.
    destruct (ms_size st + export_size s ids c x <? MAX_TYPE_SIZE) eqn:E; [|discriminate]. apply Z.ltb_lt in E. cbn [obind] in H2. rewrite Ex in H2. apply Fin in H2. unfold MAX_TYPE_SIZE in E. tauto.
  - intros (K1 & K2 & K3 & ->). destruct (proj2 (export_entity_iff st x Hc _ _) (conj K1 (conj eq_refl eq_refl))) as [b H]. eexists. split; [exact H|]. cbn beta iota.
    assert (N : (if b then needm G pos g_mutable_global "mutable global support is not enabled" else Done tt) = Done tt) by (destruct b; [apply needm_done; exact HG|reflexivity]).
    rewrite N. cbn [obind]. unfold combine. change (ms_size (grow st [] [] [] (export_refs x))) with (ms_size st). change (ms_exports (grow st [] [] [] (export_refs x))) with (ms_exports st).
    assert (E : ms_size st + export_size s ids c x <? MAX_TYPE_SIZE = true) by (apply Z.ltb_lt; exact K3). rewrite E. cbn [obind]. rewrite Ex. apply name_in in K2. rewrite K2. reflexivity.
Qed.
Lemma exports_each : forall l st st', complete st -> ms_frozen st = false -> ms_size st < 1000000 -> NoDup (ms_exports st) ->
  each (add_export G pos) st l = Done st' <->
  (Forall (export_ok c tables globals) l /\ NoDup (ms_exports st ++ map px_name l) /\ ms_size st + sum (map (export_size s ids c) l) < 1000000) /\ st' = exported st l.
Proof.
  induction l as [|x l IH]; intros st st' Hc Fr Sz Nd; cbn [each map].
  - rewrite exported_nil, app_nil_r, Z.add_0_r. split; [intros H; injection H as <-; auto|intros [_ ->]; reflexivity].
  - assert (Sm : sum (export_size s ids c x :: map (export_size s ids c) l) = export_size s ids c x + sum (map (export_size s ids c) l)) by reflexivity.
    rewrite obind_done, Sm. setoid_rewrite (export_one st x _ Hc Fr). pose proof (sum_pos (export_size s ids c) export_size_pos l) as Sp.
    assert (E1 : ms_exports (exported st [x]) = ms_exports st ++ [px_name x]) by reflexivity.
    assert (E2 : ms_size (exported st [x]) = ms_size st + export_size s ids c x) by (unfold exported; cbn; unfold sum; cbn [fold_right]; lia).
    assert (Nx : ~ In (px_name x) (ms_exports st) <-> NoDup (ms_exports st ++ [px_name x])).
    { pose proof (NoDup_Add (Add_app (px_name x) (ms_exports st) [])) as H. rewrite app_nil_r in H. tauto. }
    split.
    + intros (st1 & (K1 & K2 & K3 & ->) & H). apply IH in H; [|apply exported_complete; exact Hc|exact Fr|lia|rewrite E1; apply Nx; exact K2].
      rewrite E1, E2, <- app_assoc in H. destruct H as ((H1 & H2 & H3) & ->). rewrite exported_cons. split; [|reflexivity]. split; [constructor; assumption|]. split; [exact H2|lia].
    + intros ((H1 & H2 & H3) & ->). exists (exported st [x]). assert (K2 : ~ In (px_name x) (ms_exports st)).
      { apply NoDup_remove_2 in H2. intros K. apply H2. apply in_or_app. auto. }
      inversion H1; subst. split; [split; [assumption|split; [exact K2|split; [lia|reflexivity]]]|]. apply IH; [apply exported_complete; exact Hc|exact Fr|lia|rewrite E1; apply Nx; exact K2|].
      rewrite exported_cons, E1, E2, <- app_assoc. split; [|reflexivity]. split; [assumption|]. split; [exact H2|lia].
Qed.

(** ** The start function *)
Lemma start_iff st f st' : complete st -> start pos st f = Done st' <-> (exists t, nthz (functions c) f = Some t /\ fun_at t = Some ([], [])) /\ st' = st.
Proof.
  intros (S & _). unfold start, get_func_type. rewrite (sees_functions _ _ S), (proj1 S). destruct (nthz (functions c) f) as [t|].
  2: { split; [discriminate|intros ((t & H & _) & _); discriminate]. }
  pose proof (func_type_at pos s (ms_mod st) t) as H. rewrite (sees_types _ _ S) in H. destruct (func_type pos s (ms_mod st) t) as [[ps rs]| |]; cbn [obind].
  2,3: split; [discriminate|intros ((t' & E & K) & _); injection E as <-; congruence].
  destruct ps, rs; cbn [map] in H; split; try discriminate; try (intros E; injection E as <-; split; [eauto|reflexivity]); intros ((t' & E & K) & ->); injection E as <-; try reflexivity; congruence.
Qed.

(** ** Elements *)
Definition r_kind (a : p_elem_kind) (d : elem_kind) : Prop :=
  match a, d with
  | PKPassive, KdPassive | PKDeclared, KdDeclared => True
  | PKActive t b, KdActive i e => i = match t with Some t => t | None => 0 end /\ e_ok b e
  | _, _ => False
  end.
Definition r_items (a : p_elem_items) (d : elem_items) : Prop :=
  match a, d with
  | PIFuncs b, ItFuncs l => section_items read_var_u32 ft pos b = Ok l
  | PIExprs t b, ItExprs t' l => t = t' /\ exists bs, section_items read_const ft pos b = Ok bs /\ Forall2 e_ok bs l
  | _, _ => False
  end.
Definition r_elem (a : p_elem) (d : elem_def) : Prop := r_kind (pe_kind a) (ed_kind d) /\ r_items (pe_items a) (ed_items d).
Definition entries_ok (d : elem_def) : Prop := match ed_items d with ItFuncs l => zlen l <= 10000000 | ItExprs _ l => zlen l <= 10000000 end.
Lemma subtype_ref m a b : answer false (rf_is_subtype s a b) = r_is_subtype (module_resources s m) (VRef a) (VRef b).
Proof.
  cbn [module_resources r_is_subtype]. unfold v_is_subtype. destruct (vty_dec uidx_dec (VRef a) (VRef b)) as [E|]; [|reflexivity].
  injection E as ->. unfold rf_is_subtype. destruct (rty_dec uidx_dec b b); [reflexivity|congruence].
Qed.
Lemma elem_funcs : forall l st st', complete st -> ms_frozen st = false ->
  each (elem_func pos) st l = Done st' <-> Forall (fun f => 0 <= f < zlen (functions c)) l /\ st' = grow st [] [] [] l.
Proof.
  induction l as [|f l IH]; intros st st' Hc Fr; cbn [each].
  - rewrite grow_nil. split; [intros H; injection H as <-; auto|intros [_ ->]; reflexivity].
  - rewrite obind_done. unfold elem_func at 1, assert_mut. rewrite Fr. cbn [obind]. setoid_rewrite obind_done. rewrite Forall_cons_iff, <- nthz_bound.
    unfold get_func_type. pose proof Hc as (S & _). rewrite (sees_functions _ _ S), (proj1 S).
    assert (Ad : add_reference st f = grow st [] [] [] [f]) by (rewrite <- grow_refer; reflexivity). rewrite Ad.
    assert (FT : (exists y, match nthz (functions c) f with Some t => func_type pos s (ms_mod st) t | None => fail pos "unknown function: func index out of bounds" end = Done y) <-> exists t, nthz (functions c) f = Some t).
    { destruct (nthz (functions c) f) as [t|] eqn:E; [|split; intros (y & H); discriminate]. split; [eauto|]. intros _. pose proof (func_type_done pos s (ms_mod st) t) as K. rewrite (sees_types _ _ S) in K. apply K.
      eapply (proj1 (Forall_forall _ _)) in FNS; [exact FNS|]. unfold nthz in E. destruct (f <? 0); [discriminate|]. eapply nth_error_In. exact E. }
    rewrite <- FT. split.
    + intros (st1 & (y & Hy & E) & H). injection E as <-. apply IH in H; [|apply complete_grow; exact Hc|exact Fr]. destruct H as [H ->]. rewrite grow_app. split; [eauto|reflexivity].
    + intros (((y & Hy) & H) & ->). exists (grow st [] [] [] [f]). split; [eauto|]. apply IH; [apply complete_grow; exact Hc|exact Fr|]. rewrite grow_app. auto.
Qed.
Lemma elem_exprs x : forall bs l, Forall2 e_ok bs l -> forall st st', complete st -> ms_frozen st = false ->
  each (fun st b => check_const F G ft pos st b (VRef x)) st bs = Done st' <-> Forall (const_ok exact (CM globals) (VRef x)) l /\ st' = grow st [] [] [] (flat_map expr_refs l).
Proof.
  induction 1 as [|b e bs l Hb _ IH]; intros st st' Hc Fr; cbn [each flat_map].
  - rewrite grow_nil. split; [intros H; injection H as <-; auto|intros [_ ->]; reflexivity].
  - rewrite obind_done. pose proof (const_at st globals b e (VRef x) (proj1 Hc) Hb ltac:(congruence)) as CA. setoid_rewrite CA. rewrite Forall_cons_iff. split.
    + intros (st1 & (K & ->) & H). apply IH in H; [|apply complete_grow; exact Hc|exact Fr]. destruct H as [H ->]. rewrite grow_app. auto.
    + intros ((K & H) & ->). eexists. split; [split; [exact K|reflexivity]|]. apply IH; [apply complete_grow; exact Hc|exact Fr|]. rewrite grow_app. auto.
Qed.
Lemma zlen_forall2 {A B} (P : A -> B -> Prop) l m : Forall2 P l m -> zlen l = zlen m.
Proof. intros H. unfold zlen. induction H; cbn [List.length]; lia. Qed.
Lemma element_one st a d st' : complete st -> ms_frozen st = false -> r_elem a d ->
  add_element F G ft pos st a = Done st' <-> exists x, (elem_ok exact s ids c tables globals d x /\ entries_ok d) /\ st' = grow st [] [] [x] (elem_refs d).
Proof.
  intros Hc Fr [Rk Ri]. unfold add_element. pose proof Hc as (S & Et & _). rewrite (proj1 S), Et || rewrite (proj1 S).
  assert (HM : res_ok (module_resources s (ms_mod st))) by (apply RES, (sees_types _ _ S)).
  assert (Ty : forall x, match pe_items a with PIFuncs _ => Done (abs false false Func) | PIExprs ty _ => match of_ref ty with None => Panicked | Some r => check_ref F pos s (ms_mod st) r end end = Done x <->
    match ed_items d with ItFuncs _ => x = abs false false Func | ItExprs ty _ => value (CT exact s ids) (PRef ty) = Some (VRef x) end).
  { intros x. unfold r_items in Ri. destruct (pe_items a) as [b|ty b], (ed_items d) as [l|ty' l]; try contradiction.
    - split; [intros H; injection H as <-; reflexivity|intros ->; reflexivity].
    - destruct Ri as [<- _]. pose proof (check_ref_at F pos HF Hpos s (ms_mod st) HM ty) as H. rewrite (sees_types _ _ S) in H.
      destruct (of_ref ty) as [r|]; [|rewrite H; split; discriminate]. destruct (check_ref F pos s (ms_mod st) r) as [r'| |]; rewrite H; split; intros E; try discriminate; injection E as <-; reflexivity. }
  assert (Kd : forall x st1, match pe_kind a with
      | PKActive i offset => obind (table_at pos (ms_mod st) (match i with Some i => i | None => 0 end)) (fun t => obind (canon pos (rf_is_subtype s x (tb_elem t))) (fun b =>
          obind (check pos b "type mismatch: invalid element type for table type") (fun _ => check_const F G ft pos st offset (index_type (tb_64 t)))))
      | PKPassive | PKDeclared => obind (need F pos f_bulk_memory "bulk memory must be enabled") (fun _ => Done st)
      end = Done st1 <->
    match ed_kind d with
    | KdActive i o => exists t, nthz tables i = Some t /\ r_is_subtype (T s ids) (VRef x) (VRef (tb_elem t)) = true /\ const_ok exact (CM globals) (index_type (tb_64 t)) o
    | _ => True
    end /\ st1 = grow st [] [] [] (match ed_kind d with KdActive _ o => expr_refs o | _ => [] end)).
  { intros x st1. unfold r_kind in Rk. destruct (pe_kind a) as [ |i b| ], (ed_kind d) as [ | |i' e]; try contradiction.
    1,3: rewrite need_done by (exact HF || discriminate); cbn [obind]; rewrite grow_nil; split; [intros H; injection H as <-; auto|intros [_ ->]; reflexivity].
    destruct Rk as [-> He]. unfold table_at. rewrite Et. destruct (nthz tables _) as [t|]; cbn [obind].
    2: { split; [discriminate|intros ((t & H & _) & _); discriminate]. }
    assert (Assoc : forall (q : outcome mstate), obind (canon pos (rf_is_subtype s x (tb_elem t))) (fun b => obind (check pos b "type mismatch: invalid element type for table type") (fun _ => q)) =
      obind (obind (canon pos (rf_is_subtype s x (tb_elem t))) (fun b => check pos b "type mismatch: invalid element type for table type")) (fun _ => q)) by (intros q; destruct (canon pos (rf_is_subtype s x (tb_elem t))); reflexivity).
    rewrite Assoc, answer_done, (subtype_ref (mkModul ids [] [] [] [] [] [] None [] 0 [])). fold (T s ids).
    rewrite (const_at st globals b e _ S He ltac:(congruence)). split.
    - intros (K1 & K2 & ->). split; [eauto|reflexivity].
    - intros ((t' & E & K1 & K2) & ->). injection E as <-. auto. }
  assert (It : forall x st1 st2, complete st1 -> ms_frozen st1 = false -> match pe_items a with
      | PIFuncs items => obind (of_read (section_items read_var_u32 ft pos items)) (fun l => obind (check pos (zlen l <=? MAX_TABLE_ENTRIES) "number of elements is out of bounds") (fun _ => each (elem_func pos) st1 l))
      | PIExprs _ items => obind (of_read (section_items read_const ft pos items)) (fun l => obind (check pos (zlen l <=? MAX_TABLE_ENTRIES) "number of elements is out of bounds") (fun _ => each (fun st b => check_const F G ft pos st b (VRef x)) st1 l))
      end = Done st2 <->
    entries_ok d /\ match ed_items d with ItFuncs l => Forall (fun f => 0 <= f < zlen (functions c)) l | ItExprs _ l => Forall (const_ok exact (CM globals) (VRef x)) l end /\
    st2 = grow st1 [] [] [] (match ed_items d with ItFuncs l => l | ItExprs _ l => flat_map expr_refs l end)).
  { intros x st1 st2 Hc1 Fr1. unfold r_items, entries_ok in *. destruct (pe_items a) as [b|ty b], (ed_items d) as [l|ty' l]; try contradiction.
    - rewrite Ri. cbn [of_read obind]. rewrite unit_done, check_done, Z.leb_le, (elem_funcs l st1 st2 Hc1 Fr1). reflexivity.
    - destruct Ri as [_ (bs & -> & Hl)]. cbn [of_read obind]. rewrite unit_done, check_done, Z.leb_le, (elem_exprs x bs l Hl st1 st2 Hc1 Fr1), (zlen_forall2 _ _ _ Hl). reflexivity. }
  assert (Fin : forall x st1, ms_frozen st1 = false -> obind (assert_mut st1) (fun _ => Done (with_mod st1 (set_elements (ms_mod st1) (md_elements (ms_mod st1) ++ [x])))) = Done (grow st1 [] [] [x] [])).
  { intros y st1 E. unfold assert_mut. rewrite E. cbn [obind]. destruct st1 as [s1 [] ? ? ? ? ?]. unfold grow, with_mod, set_elements. cbn. rewrite !app_nil_r. reflexivity. }
  split.
  - intros H. apply obind_done in H. destruct H as (x & Hx & H). apply Ty in Hx. apply obind_done in H. destruct H as (st1 & H1 & H). apply Kd in H1. destruct H1 as [H1 ->].
    apply obind_done in H. destruct H as (st2 & H2 & H). apply It in H2; [|apply complete_grow; exact Hc|exact Fr]. destruct H2 as (H2 & H3 & ->). rewrite Fin in H by exact Fr. injection H as <-.
    exists x. rewrite !grow_app. cbn [app]. rewrite app_nil_r. unfold elem_refs. split; [|reflexivity]. split; [|exact H2]. unfold elem_ok. split; [|exact H1].
    destruct (ed_items d); split; assumption.
  - intros (x & ((K1 & K2) & K3) & ->). apply obind_done. exists x. split; [apply Ty; destruct (ed_items d); apply K1|]. apply obind_done. eexists. split; [apply Kd; split; [exact K2|reflexivity]|].
    apply obind_done. eexists. split; [apply It; [apply complete_grow; exact Hc|exact Fr|]; split; [exact K3|]; split; [|reflexivity]; destruct (ed_items d); apply K1|].
    rewrite Fin by exact Fr. rewrite !grow_app. cbn [app]. rewrite app_nil_r. reflexivity.
Qed.
Lemma elements_each l ds st st' : Forall2 r_elem l ds -> complete st -> ms_frozen st = false ->
  each (add_element F G ft pos) st l = Done st' <->
  exists xs, (Forall2 (elem_ok exact s ids c tables globals) ds xs /\ Forall entries_ok ds) /\ st' = grow st [] [] xs (flat_map elem_refs ds).
Proof.
  intros R Hc Fr.
  assert (E : forall xs, (Forall2 (elem_ok exact s ids c tables globals) ds xs /\ Forall entries_ok ds) <-> Forall2 (fun d x => elem_ok exact s ids c tables globals d x /\ entries_ok d) ds xs).
  { intros xs. rewrite Forall2_and. split; intros [A B]; (split; [exact A|]); clear - A B; induction A; inversion B; subst; constructor; auto. }
  setoid_rewrite E.
  apply (each_iff _ r_elem _ (fun st ds xs => grow st [] [] xs (flat_map elem_refs ds)) (fun st => complete st /\ ms_frozen st = false)); auto.
  - intros st0. apply grow_nil.
  - intros st0 a x l0 xs. cbn [flat_map]. rewrite grow_app, (app_nil_r (elem_refs a)). reflexivity.
  - intros st0 a x [H1 H2] _. split; [apply complete_grow; exact H1|exact H2].
  - intros st0 a b st1 [H1 H2] Hr. cbn [flat_map]. rewrite (app_nil_r (elem_refs b)). apply element_one; assumption.
Qed.

(** ** Data *)
Definition r_data (a : p_data) (d : option (Z * list operator)) : Prop :=
  match pd_kind a, d with
  | PDPassive, None => True
  | PDActive i b, Some (i', e) => i = i' /\ bytes_ok b /\ d_expr ft pos b = Some e /\ forallb has_rule e = true
  | _, _ => False
  end.
(** An expression that computes a number, wherever its references to functions are. *)
Lemma number_at st g b ops t : sees st g -> bytes_ok b -> d_expr ft pos b = Some ops -> forallb has_rule ops = true -> is_ref t = false -> forall st',
  check_const F G ft pos st b t = Done st' <-> const_ok exact (CM g) t ops /\ st' = st.
Proof.
  intros S B D R Nr st'. destruct (expr_refs ops) as [|r rs] eqn:Er.
  - rewrite (const_at st g b ops t S); [|split; [exact B|split; [exact D|split; [exact R|rewrite Er; intros x []]]]|auto]. rewrite Er, grow_nil. reflexivity.
  - split.
    + intros H. exfalso. pose proof (check_const_iff F G ft pos HF HG Hpos st b t (expr_refs ops) ops) as K. cbv zeta in K.
      assert (HM : res_ok (module_resources (ms_store st) (cmod (ms_mod st) (expr_refs ops)))) by (rewrite (proj1 S); apply RES; exact (sees_types _ _ S)).
      apply (K HM B D R (fun _ => Nr) (fun x Hx => Hx)) in H. destruct H as [(Kc & es & xs & -> & Hes) _].
      assert (N : expr_refs (flatten es ++ [Op_End]) = []).
      { refine (number_no_refs _ es xs t _ Hes _ Nr); [exact HM|]. apply Forall_app in Kc. destruct Kc as [Kc _]. apply forallb_forall. intros o Ho. exact (const_op_cop _ _ (proj1 (Forall_forall _ _) Kc o Ho)). }
      congruence.
    + intros [K _]. rewrite (const_number _ _ _ K Nr) in Er. discriminate.
Qed.
Lemma data_each : forall l ds, Forall2 r_data l ds -> forall st st', complete st ->
  each (add_data F G ft pos) st l = Done st' <-> Forall (data_ok exact s ids c globals) ds /\ st' = st.
Proof.
  induction 1 as [|a d l ds R _ IH]; intros st st' Hc; cbn [each].
  - split; [intros H; injection H as <-; auto|intros [_ ->]; reflexivity].
  - rewrite obind_done, Forall_cons_iff.
    assert (One : forall st1, add_data F G ft pos st a = Done st1 <-> data_ok exact s ids c globals d /\ st1 = st).
    { intros st1. unfold add_data, r_data, data_ok in *. destruct (pd_kind a) as [|i b], d as [[i' e]|]; try contradiction.
      - rewrite need_done by (exact HF || discriminate). cbn [obind]. split; [intros H; injection H as <-; auto|intros [_ ->]; reflexivity].
      - destruct R as [<- R]. pose proof Hc as (S & _ & Em & _). rewrite Em, nthz_map. destruct (nthz (memory_types c) i) as [t|].
        2: { split; [discriminate|intros ((t & H & _) & _); discriminate]. }
        assert (Nr : is_ref (index_type (m_64 t)) = false) by (destruct (m_64 t); reflexivity).
        destruct R as (R1 & R2 & R3). rewrite (number_at st globals b e _ S R1 R2 R3 Nr). split.
        + intros [K ->]. split; [eauto|reflexivity].
        + intros ((t' & E & K) & ->). injection E as <-. auto. }
    setoid_rewrite One. split.
    + intros (st1 & (K & ->) & H). apply IH in H; [|exact Hc]. tauto.
    + intros ((K & H) & ->). exists st. split; [auto|]. apply IH; auto.
Qed.

(** ** Code *)
Definition coded (st : mstate) (l : list (list Z)) : mstate :=
  match l with [] => st | _ => with_code st (Some (match ms_code st with Some i => i | None => md_imported (ms_mod st) end + zlen l)) end.
Lemma code_each : forall l tys pre st y, md_functions (ms_mod st) = pre ++ tys -> List.length l = List.length tys ->
  zlen pre = match ms_code st with Some i => i | None => md_imported (ms_mod st) end ->
  code_entries pos st l = Done y <-> Forall (fun b => zlen b <= 7654321) l /\ y = (coded st l, List.combine tys l).
Proof.
  induction l as [|b l IH]; intros tys pre st y Ef El Ei; destruct tys as [|ty tys]; try discriminate El; cbn [code_entries List.combine coded].
  - split; [intros H; injection H as <-; auto|intros [_ ->]; reflexivity].
  - injection El as El. rewrite obind_done, Forall_cons_iff. unfold code_entry, check_max. setoid_rewrite unit_done. setoid_rewrite check_done. setoid_rewrite Bool.andb_true_iff. setoid_rewrite Z.leb_le.
    assert (N : nthz (md_functions (ms_mod st)) (match ms_code st with Some i => i | None => md_imported (ms_mod st) end) = Some ty).
    { rewrite Ef, <- Ei. rewrite nthz_app_r by lia. rewrite Z.sub_diag. reflexivity. }
    setoid_rewrite N. cbn [must obind].
    specialize (IH tys (pre ++ [ty]) (with_code st (Some (match ms_code st with Some i => i | None => md_imported (ms_mod st) end + 1)))).
    assert (IH' : forall y, code_entries pos (with_code st (Some (match ms_code st with Some i => i | None => md_imported (ms_mod st) end + 1))) l = Done y <-> Forall (fun b => zlen b <= 7654321) l /\
      y = (coded (with_code st (Some (match ms_code st with Some i => i | None => md_imported (ms_mod st) end + 1))) l, List.combine tys l)).
    { intros z. apply IH; [cbn; rewrite <- app_assoc; exact Ef|exact El|]. cbn. rewrite zlen_app, Ei. reflexivity. }
    clear IH. assert (Cd : coded (with_code st (Some (match ms_code st with Some i => i | None => md_imported (ms_mod st) end + 1))) l = coded st (b :: l)).
    { unfold coded. destruct l; [rewrite zlen_cons; reflexivity|]. cbn [with_code ms_code]. unfold with_code. cbn. rewrite !zlen_cons. f_equal. f_equal. lia. }
    split.
    + intros ([st1 ty1] & ((K1 & K2) & E) & H). injection E as <- <-. apply obind_done in H. destruct H as ([st2 fs] & H1 & H2). injection H2 as <-. apply IH' in H1. destruct H1 as [H1 E]. injection E as -> ->.
      rewrite Cd. unfold MAX_FUNCTION_SIZE in K2. split; [split; [lia|exact H1]|reflexivity].
    + intros ((K & H) & ->). eexists. split; [split; [unfold MAX_FUNCTION_SIZE; lia|reflexivity]|]. apply obind_done. eexists. split; [apply IH'; split; [exact H|reflexivity]|]. rewrite Cd. reflexivity.
Qed.

(** ** Bodies *)
Definition r_body (b : list Z) (d : body_def) : Prop :=
  bytes_ok b /\ bd_size d = zlen b /\ body_locals ft pos b = Ok (bd_locals d) /\ body_ops ft pos b = Ok (bd_ops d) /\ forallb has_rule (bd_ops d) = true.
Hypothesis FEW : forall i ps rs, fun_at i = Some (ps, rs) -> zlen ps <= 1000.
Lemma bodies_each st R : module_resources (ms_store st) (ms_mod st) = R -> ms_store st = s -> md_types (ms_mod st) = ids ->
  forall l ds, Forall2 r_body l ds -> forall tys, Forall (fun i => fun_at i <> None) tys -> List.length l = List.length tys ->
  each (fun _ f => body F ft pos st f) tt (List.combine tys l) = Done tt <-> Forall2 (fun ty b => func_ok R exact ty (bd_locals b) (bd_ops b)) tys ds.
Proof.
  intros ER Es Ei. induction 1 as [|b d l ds (B1 & B2 & B3 & B4 & B5) _ IH]; intros [|ty tys] Ft L; try discriminate L; cbn [List.combine each].
  - split; [constructor|reflexivity].
  - injection L as L. inversion Ft as [|? ? F1 F2]; subst. rewrite unit_done, (IH tys F2 L).
    assert (Sub : r_sub_type_at (module_resources (ms_store st) (ms_mod st)) ty = r_sub_type_at (T (ms_store st) (md_types (ms_mod st))) ty) by reflexivity.
    assert (One : body F ft pos st (ty, b) = Done tt <-> func_ok (module_resources (ms_store st) (ms_mod st)) exact ty (bd_locals d) (bd_ops d)).
    { unfold body. cbn [fst snd]. unfold func_at in F1, FEW. specialize (FEW ty). unfold new_func. cbn [e_res]. rewrite Sub.
      destruct (r_sub_type_at (T (ms_store st) (md_types (ms_mod st))) ty) as [t|] eqn:Et; [|congruence]. destruct (c_inner (s_comp t)) as [ps rs| | |] eqn:Ec; try congruence.
      rewrite validate_iff; auto.
      - split.
        + intros (groups & ops & E1 & E2 & K). rewrite B3 in E1. rewrite B4 in E2. injection E1 as <-. injection E2 as <-. exact K.
        + intros K. eauto.
      - intros t' ps' rs' E1 E2. pose proof (eq_trans (eq_sym E1) Et) as E3. injection E3 as ->. rewrite Ec in E2. injection E2 as <- <-. apply (Z.le_trans _ 1000); [exact (FEW ps rs eq_refl)|lia].
      - lia.
      - intros ops E. rewrite B4 in E. injection E as <-. exact B5. }
    rewrite One. split.
    + intros [K1 K2]. constructor; assumption.
    + intros K. inversion K; subst. auto.
Qed.
End Items.
