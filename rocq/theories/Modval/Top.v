(** A whole module: what the validator accepts is what the specification asks. *)
From Verif.Base Require Import Prelude.
From Verif.Reader Require Import Model.
From Verif.Types Require Import RefModel CodecModel EntityModel CanonModel CanonSpec CanonLemmas CanonTop.
From Verif.Instr Require Import ImmModel Ops BodyModel.
From Verif.Sections Require Import SegModel.
From Verif.Validator Require Import State Checks Visit Api Body TypeSpec Module ModuleRes.
From Verif.Modval Require Import Model Spec Const Entities Stages Items Slots.

(** * Histories *)
Lemma run_app : forall h h' w, run w (h ++ h') = match run w h with CanonModel.Done w => run w h' | Refused e => Refused e | CanonModel.Panicked => CanonModel.Panicked | OutOfFuel => OutOfFuel end.
Proof. induction h as [|e h IH]; intros h' w; cbn [run app]; [reflexivity|]. destruct (step w e); cbn [CanonModel.obind]; auto. Qed.
Lemma reached_app h h' w w' : reached h w -> (reached (h ++ h') w' <-> run w h' = CanonModel.Done w').
Proof. unfold reached. intros H. rewrite run_app, H. reflexivity. Qed.
Lemma span_length n : forall st, List.length (CanonChecks.span n st) = n.
Proof. induction n as [|n IH]; intros st; cbn [CanonChecks.span List.length]; [reflexivity|]. f_equal. apply IH. Qed.
Lemma scope_bound k : forall gs h w w', reached h w -> zlen (w_scope w k) <= 1000000 -> run w (map (AddGroup k) gs) = CanonModel.Done w' -> zlen (w_scope w' k) <= 1000000.
Proof.
  induction gs as [|g gs IH]; intros h w w' R L H; cbn [map run] in H; [injection H as <-; exact L|].
  destruct (step w (AddGroup k g)) as [w1| | |] eqn:E; try discriminate. cbn [CanonModel.obind] in H.
  assert (R1 : reached (h ++ [AddGroup k g]) w1) by (apply (reached_app _ _ _ _ R); cbn [run]; rewrite E; reflexivity).
  refine (IH _ _ _ R1 _ H). cbn [step] in E. destruct (add_group (w_store w) (w_scope w k) g) as [[s' ids']| | |] eqn:Ea; try discriminate. injection E as <-. cbn [w_scope snd]. unfold upd. rewrite Z.eqb_refl.
  destruct (reached_inv h w R) as (gg & D & V & Df). pose proof (scope_defined _ _ _ _ _ V (Df k)) as Sd. destruct (add_group_done _ _ _ _ _ _ _ V Sd Ea) as (c & st & _ & -> & _).
  unfold add_group in Ea. destruct (limits_MAX_WASM_TYPES - zlen (w_scope w k) <? zlen g) eqn:El; [discriminate|]. apply Z.ltb_ge in El. unfold limits_MAX_WASM_TYPES in El.
  rewrite zlen_app. unfold zlen at 2. rewrite span_length. fold (zlen g). lia.
Qed.
Definition few_t {I} (t : subty I) : Prop := match c_inner (s_comp t) with IFunc ps _ => zlen ps <= 1000 | _ => True end.
Lemma few_map {I J} (f : I -> J) t : few_t t -> few_t (m_sub f t).
Proof. destruct t as [fi su [inn sh d ds]]. unfold few_t. cbn. destruct inn; cbn; auto. unfold zlen. rewrite map_length. auto. Qed.
Lemma few_store : forall h w, reached h w -> few_params h -> Forall few_t (st_types (w_store w)).
Proof.
  induction h as [|e h IH] using rev_ind; intros w R Fp.
  - unfold reached in R. cbn in R. injection R as <-. constructor.
  - unfold reached in R. rewrite run_app in R. destruct (run start_world h) as [w1| | |] eqn:R1; try discriminate. cbn [run] in R. apply Forall_app in Fp. destruct Fp as [Fh Fe]. pose proof (Forall_inv Fe) as Fe1. cbn beta in Fe1.
    specialize (IH w1 R1 Fh). destruct (reached_inv h w1 R1) as (gg & D & V & Df). destruct e as [k g|k from i|ps rs]; cbn [step] in R.
    + destruct (add_group (w_store w1) (w_scope w1 k) g) as [[s' ids']| | |] eqn:Ea; try discriminate. injection R as <-. cbn [w_store fst].
      destruct (add_group_done _ _ _ _ _ _ _ V (scope_defined _ _ _ _ _ V (Df k)) Ea) as (c & st & _ & _ & [(-> & _)|(_ & _ & -> & _)]); [exact IH|].
      apply Forall_app. split; [exact IH|]. unfold placed. apply Forall_map. eapply Forall_impl; [|exact Fe1]. intros t Ht. apply few_map. exact Ht.
    + destruct (nthz (w_scope w1 from) i); [|discriminate]. injection R as <-. exact IH.
    + destruct (intern (w_store w1) [host_type ps rs]) as [r| | |] eqn:Ei; try discriminate. injection R as <-. cbn [w_store].
      destruct (intern_done _ _ _ _ _ V Ei) as [(gid & _ & ->)|(_ & ->)]; cbn [fst]; [exact IH|]. cbn [pushed st_types]. apply Forall_app. split; [exact IH|]. constructor; [|constructor].
      apply few_map. unfold few_t, host_type. cbn. unfold zlen in *. rewrite map_length. exact Fe1.
Qed.

(** * What is read *)
Lemma all_some_forall2 {A B} (f : A -> option B) : forall l m, all_some f l = Some m -> Forall2 (fun a b => f a = Some b) l m.
Proof.
  induction l as [|a l IH]; cbn [all_some]; intros m H; [injection H as <-; constructor|]. destruct (f a) as [b|] eqn:E; [|discriminate]. destruct (all_some f l) as [m'|]; [|discriminate].
  injection H as <-. constructor; auto.
Qed.
Lemma forall2_in {A B} (P Q : A -> B -> Prop) l m : Forall2 P l m -> (forall a b, In a l -> In b m -> P a b -> Q a b) -> Forall2 Q l m.
Proof. induction 1 as [|a b l m H _ IH]; intros K; constructor; [apply K; cbn; auto|]. apply IH. intros x y X Y. apply K; cbn; auto. Qed.
Section Reads.
Variable ft : features.
Variable pos : Z.
Variable c : contents.
Hypothesis RULE : Forall (fun e => forallb has_rule e = true) (exprs c).
Lemma rule_of e : In e (exprs c) -> forallb has_rule e = true. Proof. rewrite Forall_forall in RULE. apply RULE. Qed.
Lemma read_tables l : all_some (d_table ft pos) l = Some (ct_tables c) -> Forall bytes_ok (bytes_in ft pos (STables l)) -> Forall2 (r_table ft pos c) l (ct_tables c).
Proof.
  intros D B. rewrite Forall_forall in B. cbn [bytes_in] in B. refine (forall2_in _ _ _ _ (all_some_forall2 _ _ _ D) _). intros a d Ia Id E. unfold d_table in E. unfold r_table. destruct (ptd_init a) as [b|] eqn:Eb.
  - destruct (d_expr ft pos b) as [e|] eqn:Ee; [|discriminate]. injection E as <-. cbn [td_ty td_init]. split; [reflexivity|]. split.
    { apply B. apply in_flat_map. exists a. rewrite Eb. cbn. auto. }
    split; [exact Ee|]. split.
    { apply rule_of. unfold exprs. apply in_or_app. left. apply in_flat_map. eexists. split; [exact Id|]. cbn. auto. }
    intros i Hi. unfold references. apply in_or_app. left. apply in_flat_map. eexists. split; [exact Id|]. exact Hi.
  - injection E as <-. cbn. auto.
Qed.
Lemma read_globals l : all_some (d_global ft pos) l = Some (ct_globals c) -> Forall bytes_ok (bytes_in ft pos (SGlobals l)) -> Forall2 (r_global ft pos c) l (ct_globals c).
Proof.
  intros D B. rewrite Forall_forall in B. cbn [bytes_in] in B. refine (forall2_in _ _ _ _ (all_some_forall2 _ _ _ D) _). intros a d Ia Id E. unfold d_global in E. unfold r_global.
  destruct (d_expr ft pos (pgd_init a)) as [e|] eqn:Ee; [|discriminate]. injection E as <-. cbn [gd_ty gd_init]. split; [reflexivity|]. split.
  { apply B. apply in_map. exact Ia. }
  split; [exact Ee|]. split.
  { apply rule_of. unfold exprs. apply in_or_app. right. apply in_or_app. left. apply in_map_iff. eexists. split; [|exact Id]. reflexivity. }
  intros i Hi. unfold references. apply in_or_app. right. apply in_or_app. left. apply in_flat_map. eexists. split; [exact Id|]. exact Hi.
Qed.
Lemma read_elements l : all_some (d_elem ft pos) l = Some (ct_elements c) -> Forall bytes_ok (bytes_in ft pos (SElements l)) -> Forall2 (r_elem ft pos c) l (ct_elements c).
Proof.
  intros D B. rewrite Forall_forall in B. cbn [bytes_in] in B. refine (forall2_in _ _ _ _ (all_some_forall2 _ _ _ D) _). intros a d Ia Id E. unfold d_elem in E.
  assert (RU : forall e, In e (match ed_kind d with KdActive _ o => [o] | _ => [] end ++ match ed_items d with ItExprs _ l => l | ItFuncs _ => [] end) -> forallb has_rule e = true).
  { intros e He. apply rule_of. unfold exprs. apply in_or_app. right. apply in_or_app. right. apply in_or_app. left. apply in_flat_map. eauto. }
  assert (RE : forall i, In i (elem_refs d) -> In i (references c)).
  { intros i Hi. unfold references. apply in_or_app. right. apply in_or_app. right. apply in_or_app. right. apply in_flat_map. eauto. }
  assert (BY : forall b, In b (match pe_kind a with PKActive _ b => [b] | _ => [] end ++ match pe_items a with PIExprs _ b => match section_items read_const ft pos b with Ok l => l | Err _ => [] end | PIFuncs _ => [] end) -> bytes_ok b).
  { intros b Hb. apply B. apply in_flat_map. eauto. }
  clear B Ia Id D.
  destruct (match pe_kind a with PKPassive => Some KdPassive | PKActive t o => match d_expr ft pos o with Some o0 => Some (KdActive match t with Some t0 => t0 | None => 0 end o0) | None => None end | PKDeclared => Some KdDeclared end) as [k|] eqn:Ek; [|discriminate].
  destruct (match pe_items a with PIFuncs b => match opt_of (section_items read_var_u32 ft pos b) with Some l0 => Some (ItFuncs l0) | None => None end
            | PIExprs ty b => match opt_of (section_items read_const ft pos b) with Some l0 => match all_some (d_expr ft pos) l0 with Some l1 => Some (ItExprs ty l1) | None => None end | None => None end end) as [it|] eqn:Ei; [|discriminate].
  injection E as <-. cbn [ed_kind ed_items] in *. unfold r_elem. cbn [ed_kind ed_items]. unfold elem_refs in RE. cbn [ed_kind ed_items] in RE. split.
  - clear Ei. unfold r_kind. destruct (pe_kind a) as [|t b|]; [injection Ek as <-; exact I| |injection Ek as <-; exact I].
    destruct (d_expr ft pos b) as [e|] eqn:Ee; [|discriminate]. injection Ek as <-. split; [reflexivity|]. split; [apply BY; apply in_or_app; left; cbn; auto|]. split; [exact Ee|]. split; [apply RU; apply in_or_app; left; cbn; auto|].
    intros i Hi. apply RE. apply in_or_app. left. exact Hi.
  - clear Ek. unfold r_items. destruct (pe_items a) as [b|ty b].
    + destruct (section_items read_var_u32 ft pos b) as [l0|] eqn:Es; [|discriminate]. cbn in Ei. injection Ei as <-. reflexivity.
    + destruct (section_items read_const ft pos b) as [l0|] eqn:Es; [|discriminate]. cbn [opt_of] in Ei. destruct (all_some (d_expr ft pos) l0) as [l1|] eqn:Ea; [|discriminate]. injection Ei as <-. split; [reflexivity|].
      exists l0. split; [reflexivity|]. refine (forall2_in _ _ _ _ (all_some_forall2 _ _ _ Ea) _). intros x e Ix Ie Ee. split; [apply BY; apply in_or_app; right; exact Ix|]. split; [exact Ee|]. split; [apply RU; apply in_or_app; right; exact Ie|].
      intros i Hi. apply RE. apply in_or_app. right. apply in_flat_map. eauto.
Qed.
Lemma read_data l : all_some (d_data ft pos) l = Some (ct_data c) -> Forall bytes_ok (bytes_in ft pos (SData l)) -> Forall2 (r_data ft pos) l (ct_data c).
Proof.
  intros D B. rewrite Forall_forall in B. cbn [bytes_in] in B. refine (forall2_in _ _ _ _ (all_some_forall2 _ _ _ D) _). intros a d Ia Id E. unfold d_data in E. unfold r_data.
  destruct (pd_kind a) as [|i b] eqn:Eb; [injection E as <-; exact I|]. destruct (d_expr ft pos b) as [e|] eqn:Ee; [|discriminate]. injection E as <-. split; [reflexivity|]. split.
  { apply B. apply in_flat_map. exists a. rewrite Eb. cbn. auto. }
  split; [reflexivity|]. apply rule_of. unfold exprs. do 4 (apply in_or_app; right). apply in_flat_map. eexists. split; [exact Id|]. cbn. auto.
Qed.
Lemma read_code l : all_some (d_body ft pos) l = Some (ct_code c) -> Forall bytes_ok (bytes_in ft pos (SCode l)) -> Forall2 (r_body ft pos) l (ct_code c).
Proof.
  intros D B. rewrite Forall_forall in B. cbn [bytes_in] in B. refine (forall2_in _ _ _ _ (all_some_forall2 _ _ _ D) _). intros a d Ia Id E. unfold d_body in E. unfold r_body.
  destruct (body_locals ft pos a) as [lo|] eqn:El; [|discriminate]. cbn [opt_of] in E. destruct (body_ops ft pos a) as [ops|] eqn:Eo; [|discriminate]. cbn [opt_of] in E. injection E as <-. cbn [bd_size bd_locals bd_ops].
  repeat (split; [auto|]). apply (rule_of ops). unfold exprs. do 3 (apply in_or_app; right). apply in_or_app. left. apply in_map_iff. eexists. split; [|exact Id]. reflexivity.
Qed.
End Reads.

(** * After the types *)
Lemma each_app_done {A S} (f : S -> A -> outcome S) a b s y : each f s (a ++ b) = Done y <-> exists x, each f s a = Done x /\ each f x b = Done y.
Proof. rewrite each_app. apply obind_done. Qed.
Section Rest.
Variable F : feature -> bool.
Variable G : m_feature -> bool.
Variable ft : features.
Variable pos : Z.
Hypothesis HF : forall f, f <> f_custom_descriptors -> F f = true.
Hypothesis HG : forall g, G g = true.
Hypothesis Hpos : 0 < pos.
Notation exact := (F f_custom_descriptors).
Notation sect := (section F G ft pos).
Variable s : store.
Variable ids : list Z.
Hypothesis RES : forall m, md_types m = ids -> res_ok (module_resources s m).
Hypothesis FEW : forall i ps rs, func_at s ids i = Some (ps, rs) -> zlen ps <= 1000.
Variable c : contents.
Definition st_types_only : mstate := mkMs s (mkModul ids [] [] [] [] [] [] None [] 0 []) 0 [] 1 None false.
Notation IS := (imports c).
(** A state after the functions are known. *)
Definition N tb me gl tg el dc re ex sz co fz : mstate :=
  mkMs s (mkModul ids (functions c) tb me gl tg el dc re (imported_functions c) (exact_from 0 IS)) (zlen (iglobs IS)) ex sz co fz.
Lemma functions_eq : functions c = ifuncs IS ++ ct_functions c. Proof. reflexivity. Qed.
Lemma imported_eq : imported_functions c = zlen (ifuncs IS). Proof. unfold imported_functions. rewrite functions_eq, zlen_app. lia. Qed.
Definition isz : Z := 1 + sum (map (import_size s ids) IS).
Lemma to_N t g : add_fns (imp_st s ids st_types_only IS t g) (ct_functions c) = N t (map m_64 (imems IS)) g (flat_map (idof ids) (itags IS)) [] None [] [] isz None false.
Proof. unfold N. rewrite imported_eq. reflexivity. Qed.
Lemma N_grow tb me gl tg el dc re ex sz co fz a b d e : grow (N tb me gl tg el dc re ex sz co fz) a b d e = N (tb ++ a) me (gl ++ b) tg (el ++ d) dc (re ++ e) ex sz co fz. Proof. reflexivity. Qed.
Lemma N_mems tb me gl tg el dc re ex sz co fz l : add_mems (N tb me gl tg el dc re ex sz co fz) l = N tb (me ++ map m_64 l) gl tg el dc re ex sz co fz. Proof. reflexivity. Qed.
Lemma N_tgs tb me gl tg el dc re ex sz co fz l : add_tgs ids (N tb me gl tg el dc re ex sz co fz) l = N tb me gl (tg ++ flat_map (idof ids) l) el dc re ex sz co fz. Proof. reflexivity. Qed.
Lemma N_exp tb me gl tg el dc re ex sz co fz l : exported s ids c (N tb me gl tg el dc re ex sz co fz) l = N (tb ++ []) me (gl ++ []) tg (el ++ []) dc (re ++ flat_map export_refs l) (ex ++ map px_name l) (sz + sum (map (export_size s ids c) l)) co fz. Proof. reflexivity. Qed.
Lemma N_count tb me gl tg el re ex sz co fz n : with_count (N tb me gl tg el None re ex sz co fz) n = N tb me gl tg el n re ex sz co fz. Proof. destruct n; reflexivity. Qed.
Lemma N_code tb me gl tg el dc re ex sz co fz l : exists co' fz', coded (N tb me gl tg el dc re ex sz co fz) l = N tb me gl tg el dc re ex sz co' fz'.
Proof. destruct l; cbn [coded]; do 2 eexists; reflexivity. Qed.
Lemma N_sees tb me gl tg el dc re ex sz co fz : sees s ids c (N tb me gl tg el dc re ex sz co fz) gl. Proof. split; reflexivity. Qed.
Definition me_all := map m_64 (memory_types c).
Definition tg_all := flat_map (idof ids) (tag_types c).
Lemma me_eq : map m_64 (imems IS) ++ map m_64 (ct_memories c) = me_all. Proof. unfold me_all, memory_types. rewrite map_app. reflexivity. Qed.
Lemma tg_eq : flat_map (idof ids) (itags IS) ++ flat_map (idof ids) (ct_tags c) = tg_all. Proof. unfold tg_all, tag_types. rewrite flat_map_app. reflexivity. Qed.
Lemma N_full tb gl el dc re ex sz co fz : complete s ids c tb gl (N tb me_all gl tg_all el dc re ex sz co fz). Proof. split; [apply N_sees|]. repeat split. Qed.
Lemma re_eq : (((([] ++ flat_map table_refs (ct_tables c)) ++ flat_map (fun d => expr_refs (gd_init d)) (ct_globals c)) ++ flat_map export_refs (ct_exports c)) ++ flat_map elem_refs (ct_elements c)) = references c.
Proof. unfold references. rewrite app_nil_l, <- !app_assoc. reflexivity. Qed.
Lemma tags_len l : Forall (fun i => func_at s ids i <> None) l -> zlen (flat_map (idof ids) l) = zlen l.
Proof.
  induction 1 as [|i l H _ IH]; [reflexivity|]. cbn [flat_map]. destruct (idof_some s ids i H) as [id E]. unfold idof at 1. rewrite E. cbn [app]. rewrite !zlen_cons. lia.
Qed.
Variables (l2 : list p_imports) (l4 : list p_table_def) (l7 : list p_global_def) (l10 : list p_elem) (l12 : list (list Z)) (l13 : list p_data).
Variables o2 o3 o4 o5 o6 o7 o8 o9 o10 o11 o12 o13 : list sec.
Hypothesis O2 : opt_sec SImports l2 o2. Hypothesis D2 : all_some (d_imports ft pos) l2 = Some (ct_imports c).
Hypothesis O3 : opt_sec SFunctions (ct_functions c) o3.
Hypothesis O4 : opt_sec STables l4 o4. Hypothesis D4 : Forall2 (r_table ft pos c) l4 (ct_tables c).
Hypothesis O5 : opt_sec SMemories (ct_memories c) o5.
Hypothesis O6 : opt_sec STags (ct_tags c) o6.
Hypothesis O7 : opt_sec SGlobals l7 o7. Hypothesis D7 : Forall2 (r_global ft pos c) l7 (ct_globals c).
Hypothesis O8 : opt_sec SExports (ct_exports c) o8.
Hypothesis O9 : opt_one SStart (ct_start c) o9.
Hypothesis O10 : opt_sec SElements l10 o10. Hypothesis D10 : Forall2 (r_elem ft pos c) l10 (ct_elements c).
Hypothesis O11 : opt_one SDataCount (ct_data_count c) o11.
Hypothesis O12 : opt_sec SCode l12 o12. Hypothesis D12 : Forall2 (r_body ft pos) l12 (ct_code c).
Hypothesis O13 : opt_sec SData l13 o13. Hypothesis D13 : Forall2 (r_data ft pos) l13 (ct_data c).
Hypothesis NCODE : zlen (ct_code c) = zlen (ct_functions c).
Hypothesis GROUPS : zlen (ct_types c) <= 1000000.
Notation all := (o2 ++ o3 ++ o4 ++ o5 ++ o6 ++ o7 ++ o8 ++ o9 ++ o10 ++ o11 ++ o12 ++ o13).
Lemma len_code : List.length l12 = List.length (ct_functions c).
Proof. pose proof (zlen_forall2 _ _ _ D12) as H. unfold zlen in *. lia. Qed.
Lemma size_pos l : 0 <= sum (map (export_size s ids c) l). Proof. apply sum_pos. intros. eapply export_size_pos. exact pos. Qed.
Lemma body_sizes : Forall (fun b => zlen b <= 7654321) l12 <-> Forall (fun b => bd_size b <= 7654321) (ct_code c).
Proof.
  clear -D12. revert D12. generalize (ct_code c). intros ds D. induction D as [|b d l ds (_ & E & _) _ IH]; [split; constructor|].
  split; intros H; inversion H; subst; constructor; try (apply IH; assumption); [rewrite E|rewrite <- E]; assumption.
Qed.
Lemma full_state tb gl el re ex sz co fz : re = references c -> module_resources s (ms_mod (N tb me_all gl tg_all el (ct_data_count c) re ex sz co fz)) = full_mod s ids c tb gl el.
Proof. intros ->. reflexivity. Qed.
Lemma globals_split (gli gld : list glbty) : List.length gli = List.length (iglobs IS) -> List.length gld = List.length (ct_globals c) ->
  (inits_ok F s ids c gli (ct_globals c) gld <-> globals_ok exact s ids c (gli ++ gld)).
Proof.
  intros L1 L2. rewrite inits_nth by (symmetry; exact L2). unfold globals_ok.
  assert (E : imported_globals c = List.length gli). { unfold imported_globals, global_types. fold (iglobs IS). rewrite app_length, map_length. lia. }
  rewrite E. split; intros H k d x Hd Hx.
  - rewrite nth_error_app2 in Hx by lia. replace (List.length gli + k - List.length gli)%nat with k in Hx by lia. specialize (H k d x Hd Hx). rewrite firstn_app_2. exact H.
  - specialize (H k d x Hd). rewrite nth_error_app2, firstn_app_2 in H by lia. replace (List.length gli + k - List.length gli)%nat with k in H by lia. auto.
Qed.
Lemma imported_first (gli gld : list glbty) : List.length gli = List.length (iglobs IS) -> firstn (imported_globals c) (gli ++ gld) = gli.
Proof.
  intros L1. assert (E : imported_globals c = List.length gli). { unfold imported_globals, global_types. fold (iglobs IS). rewrite app_length, map_length. lia. }
  rewrite E. rewrite <- (Nat.add_0_r (List.length gli)), firstn_app_2. cbn [firstn]. apply app_nil_r.
Qed.
Lemma skip_defined {A B} (a b : list A) (d : list B) : List.length b = List.length d -> skipn (List.length (a ++ b) - List.length d) (a ++ b) = b.
Proof. intros E. rewrite app_length. replace (List.length a + List.length b - List.length d)%nat with (List.length a) by lia. rewrite skipn_app, Nat.sub_diag, skipn_all. reflexivity. Qed.
Lemma f2_len {A B} (P : A -> B -> Prop) l m : Forall2 P l m -> List.length m = List.length l.
Proof. induction 1; cbn; auto. Qed.
Lemma rest_iff : (exists y, each sect (st_types_only, []) all = Done y /\ each (fun _ f => body F ft pos (fst y) f) tt (snd y) = Done tt) <->
  exists tables globals elements, parts_ok exact s ids c tables globals elements /\ limits s ids c.
Proof.
  assert (Z0 : forall A, zlen (@nil A) = 0) by reflexivity.
  assert (Here1 : here_st s ids st_types_only) by (repeat split).
  assert (Fits1 : fits st_types_only) by (unfold fits; cbn [ms_mod st_types_only md_functions md_tables md_memories md_tags md_globals ms_size]; rewrite !Z0; repeat split; lia).
  split.
  - intros (y & H & HB).
    apply each_app_done in H. destruct H as (y2 & H2 & H). apply (slot_imports F G ft pos HF HG Hpos s ids RES l2 _ o2 _ _ O2 D2 Here1 Fits1) in H2. destruct H2 as (tbi & gli & Li & (I1 & I2 & I3 & I4 & I5 & I6) & ->). fold (imports c) in *.
    destruct I6 as (W1 & W2 & W3 & W4 & W5 & W6). cbn [ms_mod imp_st md_functions md_tables md_memories md_tags md_globals ms_size st_types_only app] in W1, W2, W3, W4, W5, W6. rewrite tags_len in W4 by exact I4.
    apply each_app_done in H. destruct H as (y3 & H3 & H). apply (slot_functions F G ft pos s ids _ _ _ _ O3) in H3; [|repeat split|exact W1]. destruct H3 as (K3 & P3 & ->). rewrite to_N in H.
    cbn [ms_mod imp_st md_functions st_types_only app] in K3.
    assert (FNS : Forall (fun i => func_at s ids i <> None) (functions c)) by (rewrite functions_eq; apply Forall_app; auto).
    apply each_app_done in H. destruct H as (y4 & H4 & H). apply (slot_tables F G ft pos HF HG Hpos s ids RES c _ _ _ gli _ _ O4 D4) in H4; [|apply N_sees|reflexivity|exact W2]. destruct H4 as (tbd & K4 & (P4 & Q4) & ->). rewrite N_grow in H. cbn [ms_mod N md_tables] in K4. rewrite (app_nil_r gli), (app_nil_r (@nil rf)) in H.
    apply each_app_done in H. destruct H as (y5 & H5 & H). apply (slot_memories F G ft pos HF HG s ids _ _ _ _ O5) in H5; [|repeat split|exact W3]. destruct H5 as (K5 & P5 & ->). rewrite N_mems, me_eq in H. cbn [ms_mod N md_memories] in K5.
    apply each_app_done in H. destruct H as (y6 & H6 & H). apply (slot_tags F G ft pos HF s ids _ _ _ _ O6) in H6; [|repeat split|cbn [ms_mod N md_tags]; rewrite tags_len by exact I4; exact W4]. destruct H6 as (K6 & P6 & ->). rewrite N_tgs, tg_eq in H. cbn [ms_mod N md_tags] in K6. rewrite tags_len in K6 by exact I4.
    assert (TAGS : Forall (fun i => func_at s ids i <> None) (tag_types c)) by (unfold tag_types; apply Forall_app; auto).
    apply each_app_done in H. destruct H as (y7 & H7 & H). apply (slot_globals F G ft pos HF HG Hpos s ids RES c _ _ _ gli _ _ O7 D7) in H7; [|apply N_sees|reflexivity|exact W5]. destruct H7 as (gld & K7 & (P7 & Q7) & ->). rewrite N_grow in H. cbn [ms_mod N md_globals] in K7. rewrite (app_nil_r (tbi ++ tbd)), (app_nil_r (@nil rf)) in H.
    apply each_app_done in H. destruct H as (y8 & H8 & H). apply (slot_exports F G ft pos HG s ids c FNS (tbi ++ tbd) (gli ++ gld) TAGS _ _ _ _ O8) in H8; [|apply N_full|reflexivity|exact W6|reflexivity]. destruct H8 as ((K8 & P8 & Q8 & S8) & ->). rewrite N_exp in H. cbn [ms_size N] in S8. rewrite (app_nil_r (tbi ++ tbd)), (app_nil_r (gli ++ gld)), (app_nil_r (@nil rf)) in H.
    apply each_app_done in H. destruct H as (y9 & H9 & H). apply (slot_start F G ft pos s ids c (tbi ++ tbd) (gli ++ gld) _ _ _ O9) in H9; [|apply N_full]. destruct H9 as (P9 & ->).
    apply each_app_done in H. destruct H as (y10 & H10 & H). apply (slot_elements F G ft pos HF HG Hpos s ids RES c FNS (tbi ++ tbd) (gli ++ gld) _ _ _ _ _ O10 D10) in H10; [|apply N_full|reflexivity|reflexivity]. destruct H10 as (els & K10 & (P10 & Q10) & ->). rewrite N_grow in H. rewrite (app_nil_r (tbi ++ tbd)), (app_nil_r (gli ++ gld)) in H. cbn [app] in H.
    apply each_app_done in H. destruct H as (y11 & H11 & H). apply (slot_count F G ft pos _ _ _ _ O11) in H11; [|reflexivity]. destruct H11 as (K11 & ->). rewrite N_count in H.
    apply each_app_done in H. destruct H as (y12 & H12 & H). apply (slot_code F G ft pos _ _ _ (ifuncs IS) (ct_functions c) _ O12) in H12; [|reflexivity|reflexivity|exact len_code|reflexivity|symmetry; apply imported_eq]. destruct H12 as (K12 & ->).
    match type of H with context [coded (N ?tb ?me ?gl ?tg ?el ?dc ?re ?ex ?sz ?co ?fz) l12] => destruct (N_code tb me gl tg el dc re ex sz co fz l12) as (co' & fz' & EC) end. rewrite EC in H.
    apply (slot_data F G ft pos HF HG Hpos s ids RES c (tbi ++ tbd) (gli ++ gld) _ _ _ _ _ _ O13 D13) in H; [|apply N_full]. destruct H as ((K13 & P13) & ->). cbn [fst snd] in HB.
    pose proof (f2_len _ _ _ I5) as LG. pose proof (f2_len _ _ _ P7) as LG'. rewrite map_length in LG'. pose proof (f2_len _ _ _ P4) as LT. rewrite map_length in LT.
    eapply (bodies_each F ft pos HF Hpos s ids RES c FNS TAGS FEW) in HB; [|apply full_state; exact re_eq|reflexivity|reflexivity|exact D12|exact P3|exact len_code].
    exists (tbi ++ tbd), (gli ++ gld), els. split.
    + constructor; auto.
      * unfold table_types. apply Forall2_app; assumption.
      * rewrite skip_defined by exact LT. eapply forall2_in; [exact Q4|]. intros d x _ _. unfold init_ok, table_init_ok. rewrite imported_first by exact LG. auto.
      * unfold memory_types. apply Forall_app; auto.
      * unfold global_types. apply Forall2_app; assumption.
      * apply globals_split; assumption.
    + constructor; auto.
      * rewrite functions_eq, zlen_app. exact K3.
      * unfold table_types. rewrite zlen_app. fold (itables IS). rewrite (zlen_forall2 _ _ _ I2). unfold zlen at 2. rewrite map_length. exact K4.
      * unfold memory_types. fold (imems IS). rewrite zlen_app. unfold zlen in K5 at 1. rewrite map_length in K5. exact K5.
      * unfold tag_types. fold (itags IS). rewrite zlen_app. exact K6.
      * unfold global_types. fold (iglobs IS). rewrite zlen_app, (zlen_forall2 _ _ _ I5). unfold zlen at 2. rewrite map_length. exact K7.
      * apply body_sizes. exact K12.
  - intros (T & Gl & els & [P1 P2 P3 P4 P5 P6 P7 P8 P9 P10 P11 P12 P13] & [L1 L2 L3 L4 L5 L6 L7 L8 L9 L10 L11 L12 L13' L14]).
    unfold table_types in P2. apply Forall2_app_inv_l in P2. destruct P2 as (tbi & tbd & I2 & P2 & ->). fold (itables IS) in I2.
    unfold global_types in P6. apply Forall2_app_inv_l in P6. destruct P6 as (gli & gld & I5 & P6 & ->). fold (iglobs IS) in I5.
    pose proof P1 as FNS. pose proof P5 as TAGS. rewrite functions_eq in P1. apply Forall_app in P1. destruct P1 as [I1 P1].
    unfold tag_types in P5. apply Forall_app in P5. destruct P5 as [I4 P5]. fold (itags IS) in I4.
    unfold memory_types in P4. apply Forall_app in P4. destruct P4 as [I3 P4]. fold (imems IS) in I3.
    pose proof (f2_len _ _ _ I5) as LG. pose proof (f2_len _ _ _ P6) as LG'. rewrite map_length in LG'. pose proof (f2_len _ _ _ P2) as LT. rewrite map_length in LT.
    rewrite skip_defined in P3 by exact LT. apply (globals_split gli gld LG LG') in P7.
    assert (Q3 : Forall2 (init_ok F s ids c gli) (ct_tables c) tbd).
    { eapply forall2_in; [exact P3|]. intros d x _ _. unfold init_ok, table_init_ok. rewrite imported_first by exact LG. auto. }
    rewrite functions_eq, zlen_app in L3. unfold table_types in L4. rewrite zlen_app in L4. fold (itables IS) in L4. rewrite (zlen_forall2 _ _ _ I2) in L4. unfold zlen in L4 at 2. rewrite map_length in L4. fold (zlen (ct_tables c)) in L4.
    unfold memory_types in L5. rewrite zlen_app in L5. fold (imems IS) in L5. unfold tag_types in L6. rewrite zlen_app in L6. fold (itags IS) in L6.
    unfold global_types in L7. rewrite zlen_app in L7. fold (iglobs IS) in L7. rewrite (zlen_forall2 _ _ _ I5) in L7. unfold zlen in L7 at 2. rewrite map_length in L7. fold (zlen (ct_globals c)) in L7.
    fold isz in L14.
    assert (Nn : forall A (l : list A), 0 <= zlen l) by (intros; unfold zlen; lia).
    pose proof (Nn _ (ifuncs IS)). pose proof (Nn _ (ct_functions c)). pose proof (Nn _ tbi). pose proof (Nn _ (ct_tables c)). pose proof (Nn _ (imems IS)). pose proof (Nn _ (ct_memories c)).
    pose proof (Nn _ (itags IS)). pose proof (Nn _ (ct_tags c)). pose proof (Nn _ gli). pose proof (Nn _ (ct_globals c)). pose proof (size_pos (ct_exports c)) as SP.
    assert (MZ : zlen (map m_64 (imems IS)) = zlen (imems IS)) by (unfold zlen; rewrite map_length; reflexivity).
    set (st2 := imp_st s ids st_types_only IS tbi gli).
    match goal with |- context [each sect _ ?l] => set (sl := l) end.
    assert (EE : exists co' fz', each sect (st_types_only, []) sl = Done (N (tbi ++ tbd) me_all (gli ++ gld) tg_all els (ct_data_count c) (references c) (map px_name (ct_exports c)) (isz + sum (map (export_size s ids c) (ct_exports c))) co' fz', List.combine (ct_functions c) l12)).
    { subst sl.
      match goal with |- context [N _ _ _ _ _ ?dc _ _ ?sz _ _] => destruct (N_code (tbi ++ tbd) me_all (gli ++ gld) tg_all els dc (references c) (map px_name (ct_exports c)) sz None false l12) as (co' & fz' & EC) end. exists co', fz'.
      apply each_app_done. exists (st2, []). split.
      { apply (slot_imports F G ft pos HF HG Hpos s ids RES l2 _ o2 _ _ O2 D2 Here1 Fits1). exists tbi, gli. fold (imports c). split; [exact L2|]. split; [|reflexivity].
        repeat (split; [assumption|]). unfold fits. cbn [ms_mod imp_st md_functions md_tables md_memories md_tags md_globals ms_size st_types_only app]. rewrite tags_len by exact I4. fold isz. repeat split; lia. }
      apply each_app_done. exists (N tbi (map m_64 (imems IS)) gli (flat_map (idof ids) (itags IS)) [] None [] [] isz None false, []). split.
      { apply (slot_functions F G ft pos s ids _ _ _ _ O3); [repeat split|subst st2; cbn [ms_mod imp_st md_functions st_types_only app]; lia|]. split; [exact L3|]. split; [exact P1|]. subst st2. rewrite to_N. reflexivity. }
      apply each_app_done. exists (N (tbi ++ tbd) (map m_64 (imems IS)) gli (flat_map (idof ids) (itags IS)) [] None ([] ++ flat_map table_refs (ct_tables c)) [] isz None false, []). split.
      { apply (slot_tables F G ft pos HF HG Hpos s ids RES c _ _ _ gli _ _ O4 D4); [apply N_sees|reflexivity|cbn [ms_mod N md_tables]; lia|]. exists tbd. split; [exact L4|]. split; [auto|]. rewrite N_grow, (app_nil_r gli). reflexivity. }
      apply each_app_done. exists (N (tbi ++ tbd) me_all gli (flat_map (idof ids) (itags IS)) [] None ([] ++ flat_map table_refs (ct_tables c)) [] isz None false, []). split.
      { apply (slot_memories F G ft pos HF HG s ids _ _ _ _ O5); [repeat split|cbn [ms_mod N md_memories]; lia|]. split; [cbn [ms_mod N md_memories]; lia|]. split; [exact P4|]. rewrite N_mems, me_eq. reflexivity. }
      apply each_app_done. exists (N (tbi ++ tbd) me_all gli tg_all [] None ([] ++ flat_map table_refs (ct_tables c)) [] isz None false, []). split.
      { apply (slot_tags F G ft pos HF s ids _ _ _ _ O6); [repeat split|cbn [ms_mod N md_tags]; rewrite tags_len by exact I4; lia|]. split; [cbn [ms_mod N md_tags]; rewrite tags_len by exact I4; lia|]. split; [exact P5|]. rewrite N_tgs, tg_eq. reflexivity. }
      apply each_app_done. exists (N (tbi ++ tbd) me_all (gli ++ gld) tg_all [] None (([] ++ flat_map table_refs (ct_tables c)) ++ flat_map (fun d => expr_refs (gd_init d)) (ct_globals c)) [] isz None false, []). split.
      { apply (slot_globals F G ft pos HF HG Hpos s ids RES c _ _ _ gli _ _ O7 D7); [apply N_sees|reflexivity|cbn [ms_mod N md_globals]; lia|]. exists gld. split; [exact L7|]. split; [auto|]. rewrite N_grow, (app_nil_r (tbi ++ tbd)). reflexivity. }
      apply each_app_done. exists (N (tbi ++ tbd) me_all (gli ++ gld) tg_all [] None ((([] ++ flat_map table_refs (ct_tables c)) ++ flat_map (fun d => expr_refs (gd_init d)) (ct_globals c)) ++ flat_map export_refs (ct_exports c)) (map px_name (ct_exports c)) (isz + sum (map (export_size s ids c) (ct_exports c))) None false, []). split.
      { apply (slot_exports F G ft pos HG s ids c FNS (tbi ++ tbd) (gli ++ gld) TAGS _ _ _ _ O8); [apply N_full|reflexivity|cbn [ms_size N]; lia|reflexivity|]. split; [repeat (split; [assumption|]); exact L14|]. rewrite N_exp, (app_nil_r (tbi ++ tbd)), (app_nil_r (gli ++ gld)). reflexivity. }
      apply each_app_done. eexists. split.
      { apply (slot_start F G ft pos s ids c (tbi ++ tbd) (gli ++ gld) _ _ _ O9); [apply N_full|]. split; [exact P10|reflexivity]. }
      apply each_app_done. exists (N (tbi ++ tbd) me_all (gli ++ gld) tg_all els None (references c) (map px_name (ct_exports c)) (isz + sum (map (export_size s ids c) (ct_exports c))) None false, []). split.
      { apply (slot_elements F G ft pos HF HG Hpos s ids RES c FNS (tbi ++ tbd) (gli ++ gld) _ _ _ _ _ O10 D10); [apply N_full|reflexivity|reflexivity|]. exists els. split; [exact L9|]. split; [auto|]. rewrite N_grow, re_eq, (app_nil_r (tbi ++ tbd)), (app_nil_r (gli ++ gld)). reflexivity. }
      apply each_app_done. eexists. split.
      { apply (slot_count F G ft pos _ _ _ _ O11); [reflexivity|]. split; [exact L11|reflexivity]. }
      rewrite N_count. apply each_app_done. eexists. split.
      { apply (slot_code F G ft pos _ _ _ (ifuncs IS) (ct_functions c) _ O12); [reflexivity|reflexivity|exact len_code|reflexivity|symmetry; apply imported_eq|]. split; [apply body_sizes; exact L13'|reflexivity]. }
      rewrite EC. apply (slot_data F G ft pos HF HG Hpos s ids RES c (tbi ++ tbd) (gli ++ gld) _ _ _ _ _ _ O13 D13); [apply N_full|]. split; [split; [exact L10|exact P12]|reflexivity]. }
    destruct EE as (co' & fz' & EE). eexists. split; [exact EE|]. cbn [fst snd].
    apply (bodies_each F ft pos HF Hpos s ids RES c FNS TAGS FEW _ (full_mod s ids c (tbi ++ tbd) (gli ++ gld) els)) with (ds := ct_code c); [apply full_state; reflexivity|reflexivity|reflexivity|exact D12|exact P1|exact len_code|exact P13].
Qed.
End Rest.

(** * From the beginning *)
Section Whole.
Variable F : feature -> bool.
Variable G : m_feature -> bool.
Variable ft : features.
Variable pos : Z.
Hypothesis HF : forall f, f <> f_custom_descriptors -> F f = true.
Hypothesis HG : forall g, G g = true.
Hypothesis Hpos : 0 < pos.
Lemma opt_sec_bytes {A} (mk : list A -> sec) l o l' : opt_sec mk l o -> Forall bytes_ok (flat_map (bytes_in ft pos) (o ++ l')) ->
  (bytes_in ft pos (mk []) = []) -> Forall bytes_ok (bytes_in ft pos (mk l)) /\ Forall bytes_ok (flat_map (bytes_in ft pos) l').
Proof.
  intros [->|[-> ->]] H E; cbn [app flat_map] in H; [apply Forall_app in H; exact H|]. split; [rewrite E; constructor|exact H].
Qed.
Lemma opt_one_bytes {A} (mk : A -> sec) x o l' : opt_one mk x o -> Forall bytes_ok (flat_map (bytes_in ft pos) (o ++ l')) -> Forall bytes_ok (flat_map (bytes_in ft pos) l').
Proof. unfold opt_one. destruct x; intros -> H; cbn [app flat_map] in H; [apply Forall_app in H; apply H|exact H]. Qed.
Lemma few_at h w k : reached h w -> few_params h -> forall i ps rs, func_at (w_store w) (w_scope w k) i = Some (ps, rs) -> zlen ps <= 1000.
Proof.
  intros R Fp i ps rs H. pose proof (few_store h w R Fp) as FS. rewrite Forall_forall in FS. unfold func_at, T, module_resources in H. cbn [r_sub_type_at] in H.
  unfold opt_nthz, stored in H. cbn [md_types] in H. destruct (nthz (w_scope w k) i) as [id|]; [|discriminate]. destruct (nthz (st_types (w_store w)) id) as [t|] eqn:E; [|discriminate].
  assert (K : few_t (m_sub UId t)). { apply few_map, FS. eapply nth_error_In. unfold nthz in E. destruct (id <? 0); [discriminate|exact E]. }
  unfold few_t in K. destruct (c_inner (s_comp (m_sub UId t))); try discriminate. injection H as -> ->. exact K.
Qed.
Lemma module_iff h k w0 secs c : reached h w0 -> w_scope w0 k = [] -> few_params (h ++ map (AddGroup k) (ct_types c)) ->
  in_order 0 secs -> contents_of ft pos secs = Some c -> Forall bytes_ok (flat_map (bytes_in ft pos) secs) -> Forall (fun e => forallb has_rule e = true) (exprs c) ->
  zlen (ct_code c) = zlen (ct_functions c) ->
  validate_module F G ft pos (w_store w0) secs = Done tt <-> module_ok (F f_custom_descriptors) h k c.
Proof.
  intros R E0 Fp IO D B RU NC. unfold contents_of, no_contents in D.
  destruct (peel_1 _ _ _ _ _ _ _ _ _ _ _ _ _ _ _ _ IO D) as (x1 & f1 & o1 & r1 & -> & O1 & X1 & IO1 & D1). clear IO D.
  destruct (peel_2 _ _ _ _ _ _ _ _ _ _ _ _ _ _ _ _ IO1 D1) as (x2 & f2 & o2 & r2 & -> & O2 & X2 & IO2 & D2). clear IO1 D1.
  destruct (peel_3 _ _ _ _ _ _ _ _ _ _ _ _ _ _ _ _ IO2 D2) as (x3 & f3 & o3 & r3 & -> & O3 & X3 & IO3 & D3). clear IO2 D2.
  destruct (peel_4 _ _ _ _ _ _ _ _ _ _ _ _ _ _ _ _ IO3 D3) as (x4 & f4 & o4 & r4 & -> & O4 & X4 & IO4 & D4). clear IO3 D3.
  destruct (peel_5 _ _ _ _ _ _ _ _ _ _ _ _ _ _ _ _ IO4 D4) as (x5 & f5 & o5 & r5 & -> & O5 & X5 & IO5 & D5). clear IO4 D4.
  destruct (peel_6 _ _ _ _ _ _ _ _ _ _ _ _ _ _ _ _ IO5 D5) as (x6 & f6 & o6 & r6 & -> & O6 & X6 & IO6 & D6). clear IO5 D5.
  destruct (peel_7 _ _ _ _ _ _ _ _ _ _ _ _ _ _ _ _ IO6 D6) as (x7 & f7 & o7 & r7 & -> & O7 & X7 & IO7 & D7). clear IO6 D6.
  destruct (peel_8 _ _ _ _ _ _ _ _ _ _ _ _ _ _ _ _ IO7 D7) as (x8 & f8 & o8 & r8 & -> & O8 & X8 & IO8 & D8). clear IO7 D7.
  destruct (peel_9 _ _ _ _ _ _ _ _ _ _ _ _ _ _ _ _ IO8 D8) as (f9 & o9 & r9 & -> & O9 & IO9 & D9). clear IO8 D8.
  destruct (peel_10 _ _ _ _ _ _ _ _ _ _ _ _ _ _ _ _ IO9 D9) as (x10 & f10 & o10 & r10 & -> & O10 & X10 & IO10 & D10). clear IO9 D9.
  destruct (peel_11 _ _ _ _ _ _ _ _ _ _ _ _ _ _ _ _ IO10 D10) as (f11 & o11 & r11 & -> & O11 & IO11 & D11). clear IO10 D10.
  destruct (peel_12 _ _ _ _ _ _ _ _ _ _ _ _ _ _ _ _ IO11 D11) as (x12 & f12 & o12 & r12 & -> & O12 & X12 & IO12 & D12). clear IO11 D11.
  destruct (peel_13 _ _ _ _ _ _ _ _ _ _ _ _ _ _ _ _ IO12 D12) as (x13 & f13 & o13 & r13 & -> & O13 & X13 & IO13 & D13). clear IO12 D12.
  apply in_order_end in IO13. subst r13. cbn [d_sections] in D13. injection D13 as D13. rewrite (app_nil_r o13) in *.
  destruct (opt_sec_bytes _ _ _ _ O1 B eq_refl) as [_ B1]. destruct (opt_sec_bytes _ _ _ _ O2 B1 eq_refl) as [_ B2]. destruct (opt_sec_bytes _ _ _ _ O3 B2 eq_refl) as [_ B3].
  destruct (opt_sec_bytes _ _ _ _ O4 B3 eq_refl) as [Y4 B4]. destruct (opt_sec_bytes _ _ _ _ O5 B4 eq_refl) as [_ B5]. destruct (opt_sec_bytes _ _ _ _ O6 B5 eq_refl) as [_ B6].
  destruct (opt_sec_bytes _ _ _ _ O7 B6 eq_refl) as [Y7 B7]. destruct (opt_sec_bytes _ _ _ _ O8 B7 eq_refl) as [_ B8]. pose proof (opt_one_bytes _ _ _ _ O9 B8) as B9.
  destruct (opt_sec_bytes _ _ _ _ O10 B9 eq_refl) as [Y10 B10]. pose proof (opt_one_bytes _ _ _ _ O11 B10) as B11.
  destruct (opt_sec_bytes _ _ _ _ O12 B11 eq_refl) as [Y12 B12]. rewrite <- (app_nil_r o13) in B12. destruct (opt_sec_bytes _ _ _ _ O13 B12 eq_refl) as [Y13 _]. clear B B1 B2 B3 B4 B5 B6 B7 B8 B9 B10 B11 B12.
  subst x3 x5 x6 x8.
  assert (E1 : f1 = ct_types c) by (rewrite <- D13; reflexivity). assert (E2 : f2 = ct_imports c) by (rewrite <- D13; reflexivity). assert (E3 : f3 = ct_functions c) by (rewrite <- D13; reflexivity).
  assert (E4 : f4 = ct_tables c) by (rewrite <- D13; reflexivity). assert (E5 : f5 = ct_memories c) by (rewrite <- D13; reflexivity). assert (E6 : f6 = ct_tags c) by (rewrite <- D13; reflexivity).
  assert (E7 : f7 = ct_globals c) by (rewrite <- D13; reflexivity). assert (E8 : f8 = ct_exports c) by (rewrite <- D13; reflexivity). assert (E9 : f9 = ct_start c) by (rewrite <- D13; reflexivity).
  assert (E10 : f10 = ct_elements c) by (rewrite <- D13; reflexivity). assert (E11 : f11 = ct_data_count c) by (rewrite <- D13; reflexivity). assert (E12 : f12 = ct_code c) by (rewrite <- D13; reflexivity).
  assert (E13 : f13 = ct_data c) by (rewrite <- D13; reflexivity). clear D13. subst f1 f2 f3 f4 f5 f6 f7 f8 f9 f10 f11 f12 f13.
  pose proof (read_tables ft pos c RU _ X4 Y4) as R4. pose proof (read_globals ft pos c RU _ X7 Y7) as R7. pose proof (read_elements ft pos c RU _ X10 Y10) as R10.
  pose proof (read_code ft pos c RU _ X12 Y12) as R12. pose proof (read_data ft pos c RU _ X13 Y13) as R13.
  assert (IW : in_world k (new_mstate (w_store w0)) w0) by (repeat split; symmetry; exact E0).
  assert (L0 : zlen (w_scope w0 k) <= 1000000) by (rewrite E0; unfold zlen; cbn [List.length]; lia).
  assert (After : forall w, zlen (ct_types c) <= 1000000 -> run w0 (map (AddGroup k) (ct_types c)) = CanonModel.Done w ->
    ((exists y, each (section F G ft pos) (with_world k (new_mstate (w_store w0)) w, []) (o2 ++ o3 ++ o4 ++ o5 ++ o6 ++ o7 ++ o8 ++ o9 ++ o10 ++ o11 ++ o12 ++ o13) = Done y /\
       each (fun _ f => body F ft pos (fst y) f) tt (snd y) = Done tt) <->
     exists tables globals elements, parts_ok (F f_custom_descriptors) (w_store w) (w_scope w k) c tables globals elements /\ limits (w_store w) (w_scope w k) c)).
  { intros w GR RN. pose proof (proj2 (reached_app h _ w0 w R) RN) as RW. apply (rest_iff F G ft pos HF HG Hpos (w_store w) (w_scope w k)) with (l2 := x2) (l4 := x4) (l7 := x7) (l10 := x10) (l12 := x12) (l13 := x13); auto.
    - intros m Em. apply (module_res_ok _ _ m RW). rewrite Em. exact (scope_bound k _ _ _ _ R L0 RN).
    - exact (few_at _ _ k RW Fp). }
  unfold validate_module. rewrite obind_done.
  assert (Sw : forall x, (exists y, each (section F G ft pos) x (o2 ++ o3 ++ o4 ++ o5 ++ o6 ++ o7 ++ o8 ++ o9 ++ o10 ++ o11 ++ o12 ++ o13) = Done y /\ (let '(st, fs) := y in each (fun _ f => body F ft pos st f) tt fs) = Done tt) <->
    (exists y, each (section F G ft pos) x (o2 ++ o3 ++ o4 ++ o5 ++ o6 ++ o7 ++ o8 ++ o9 ++ o10 ++ o11 ++ o12 ++ o13) = Done y /\ each (fun _ f => body F ft pos (fst y) f) tt (snd y) = Done tt)).
  { intros x. split; intros ([st fs] & H); exists (st, fs); exact H. }
  unfold module_ok. split.
  - intros (y & H & HB). apply each_app_done in H. destruct H as (y1 & H1 & H). apply (slot_types F G ft pos k _ _ _ _ w0 _ O1 X1 IW E0) in H1. destruct H1 as (w & GR & RN & ->).
    destruct (proj1 (After w GR RN) (proj1 (Sw _) (ex_intro _ y (conj H HB)))) as (ta & gl & el & K). exists w, ta, gl, el. split; [exact (proj2 (reached_app h _ w0 w R) RN)|exact K].
  - intros (w & ta & gl & el & RW & K). apply (reached_app h _ w0 w R) in RW. pose proof (li_groups _ _ _ (proj2 K)) as GR.
    destruct (proj2 (Sw _) (proj2 (After w GR RW) (ex_intro _ ta (ex_intro _ gl (ex_intro _ el K))))) as (y & H & HB). exists y. split; [|exact HB].
    apply each_app_done. exists (with_world k (new_mstate (w_store w0)) w, []). split; [|exact H]. apply (slot_types F G ft pos k _ _ _ _ w0 _ O1 X1 IW E0). exists w. auto.
Qed.
End Whole.
