(** Constant expressions: what the validator accepts is what the rules type. *)
From Verif.Base Require Import Prelude.
From Verif.Reader Require Import Model Spec.
From Verif.Codec Require Import Kit Local.
From Verif.Locals Require Import Model Proofs.
From Verif.Types Require Import RefModel CodecModel EntityModel CanonModel CanonSpec.
From Verif.Instr Require Import ImmModel Ops Convert Imms BodyModel BodyProofs LocalInstr HonestInstr.
From Verif.Instr Require Visit.
From Verif.Sections Require Import SegModel.
From Verif.Validator Require Import State Checks Visit Generic Undo Top Api Body Sig TypeSpec TypeBase TypeSem TypeLook TypeSig TypeInst TypeBlocks TypeRun TypeKinds TypeFunc Module.
From Verif.Modval Require Import Model Spec.

(** * The module as constant expressions see it *)
Definition cmod (m : modul) (rs : list Z) : modul :=
  mkModul (md_types m) (md_functions m) [] [] (md_globals m) [] [] None rs (md_imported m) (md_exact_imports m).
Definition cop (o : operator) : bool :=
  match o with
  | Op_I32Const _ | Op_I64Const _ | Op_F32Const _ | Op_F64Const _ | Op_V128Const _ | Op_RefNull _ | Op_RefFunc _ | Op_End
  | Op_I32Add | Op_I32Sub | Op_I32Mul | Op_I64Add | Op_I64Sub | Op_I64Mul
  | Op_StructNew _ | Op_StructNewDefault _ | Op_StructNewDesc _ | Op_StructNewDefaultDesc _ | Op_ArrayNew _ | Op_ArrayNewDefault _ | Op_ArrayNewFixed _ _
  | Op_RefI31 | Op_RefI31Shared | Op_ExternConvertAny | Op_AnyConvertExtern | Op_GlobalGet _ => true
  | _ => false
  end.
Lemma op_same s m rs F a o v : cop o = true -> (forall i, o = Op_RefFunc i -> In i rs /\ In i (md_references m)) ->
  op (mkEnv (module_resources s m) F a) o v = op (mkEnv (module_resources s (cmod m rs)) F a) o v.
Proof.
  destruct m as [ty fn tb me gl tg el dc re im ex]. cbn [md_references]. intros H K. destruct o; try discriminate H; try (clear; reflexivity).
  destruct (K _ eq_refl) as [K1 K2].
  assert (X : forall l, In function_index l -> existsb (Z.eqb function_index) l = true) by (intros l L; apply existsb_exists; exists function_index; rewrite Z.eqb_refl; auto).
  unfold op, visit. cbn [gate visit_op]. unfold visit_ref_func, vbind, vcheck.
  cbn [e_res e_feat module_resources r_type_id_of_function r_is_function_referenced r_has_function_exact_type cmod md_functions md_types md_references md_imported md_exact_imports].
  rewrite (X re K2), (X rs K1). reflexivity.
Qed.

(** * The operators of an expression one after the other *)
Lemma expr_collect ft pos b ops : d_expr ft pos b = Some ops ->
  exists c' r', ops_collect (List.length b) cs_new (new_reader ft b pos) = Ok ((ops, c'), r') /\ cs_list c' = [].
Proof.
  unfold d_expr, read_expr, bind. cbn [new_reader r_rem]. fold (new_reader ft b pos).
  destruct (ops_collect _ cs_new (new_reader ft b pos)) as [[[ops1 c'] r1]|e] eqn:Ec; [|discriminate]. cbn [fst snd].
  unfold ops_finish. rewrite last_list. destruct (cs_list c') as [|k t] eqn:Ek; cbn [hd_error]; [|discriminate].
  destruct (eof r1); [|discriminate]. unfold ret. intros H. injection H as ->. exists c', r1. auto.
Qed.
Section Run.
Variable F : feature -> bool.
Variable G : m_feature -> bool.
Variable pos : Z.
Definition seen (x : mstate * bool) : resources := module_resources (ms_store (fst x)) (ms_mod (fst x)).
Fixpoint crun (l : list (Z * operator)) (s : vst) (x : mstate * bool) : outcome (mstate * bool) :=
  match l with
  | [] => Done x
  | (a, o) :: l =>
    obind (const_before F G pos o x) (fun x => obind (of_visit (op (mkEnv (seen x) F a) o s)) (fun s => crun l s x))
  end.
Lemma const_collect : forall fuel r s c x, cs_list c = kinds s -> cs_wf c -> good r ->
  match ops_collect fuel c r with
  | Ok ((ops, c'), r') => exists l, map snd l = ops /\ nz l /\ sensibles ops /\
      (forallb in_scope ops = true -> path (cs_list c) ops (cs_list c')) /\
      forall y, const_loop F G pos fuel r s x = Done y <-> crun l s x = Done y
  | Err _ => True
  end.
Proof.
  induction fuel as [|n IH]; intros r s c x Hc Hw Hg.
  { cbn [ops_collect const_loop]. destruct (eof r) eqn:Ee; [|exact I]. exists []. cbn [map crun forallb]. repeat split; auto; constructor. }
  cbn [ops_collect const_loop]. destruct (eof r) eqn:Ee.
  { exists []. cbn [map crun forallb]. repeat split; auto; constructor. }
  unfold ops_read, bind. rewrite current_kinds, <- Hc, last_list.
  destruct (Verif.Instr.Visit.visit_operator (hd_error (cs_list c)) r) as [[o r1]|e] eqn:Er; [|exact I].
  unfold ret. cbn [of_read obind fst snd]. destruct (read_op_ok _ _ _ _ Hg Er) as (k & Hk & Hf & Hs).
  assert (Hg1 : good r1) by (eapply honest_good; [apply (honest_operator (hd_error (cs_list c)))|exact Er|exact Hg]).
  assert (Hl : exists t, cs_list c = k :: t) by (destruct (cs_list c); [discriminate|injection Hk as ->; eauto]). destruct Hl as (t & Hl).
  assert (Ht : exists k, cs_top c = Some k) by (unfold cs_list in Hl; destruct (cs_top c); [eauto|discriminate]).
  destruct (cs_visit_list o c Hw Ht) as [Hw1 Hl1].
  assert (Stop : forall v : outcome (mstate * bool), (forall y, v <> Done y) -> (forall l y, crun ((original_position r, o) :: l) s x <> Done y) ->
    match (match ops_collect n (cs_visit o c) r1 with Ok (y, r') => Ok ((o :: fst y, snd y), r') | Err e => Err e end) with
    | Ok ((ops, c'), r') => exists l, map snd l = ops /\ nz l /\ sensibles ops /\
        (forallb in_scope ops = true -> path (cs_list c) ops (cs_list c')) /\ forall y, v = Done y <-> crun l s x = Done y
    | Err _ => True
    end).
  { intros v Hv Hr. pose proof (collect_facts n r1 (cs_visit o c) Hg1 Hw1) as Hf1. destruct (ops_collect n (cs_visit o c) r1) as [[[ops c'] r']|e']; [|exact I]. cbn [fst snd].
    destruct Hf1 as (l & H1 & H2 & _ & H4 & H5). exists ((original_position r, o) :: l). cbn [map snd forallb].
    split; [rewrite H1; reflexivity|]. split; [constructor; [cbn; destruct Hg; lia|exact H2]|]. split; [constructor; assumption|]. split.
    - intros Hi. apply andb_prop in Hi. destruct Hi as [Hi1 Hi2]. rewrite Hl. constructor; [exact Hi1|rewrite <- Hk; exact Hf|].
      rewrite <- Hl, <- Hl1. apply H5. exact Hi2.
    - intros y. split; [intros K; exfalso; exact (Hv y K)|intros K; exfalso; exact (Hr l y K)]. }
  destruct (const_before F G pos o x) as [x1|e|] eqn:Eb; cbn [obind].
  2,3: apply Stop; [intros y; discriminate|]; intros l y; cbn [crun]; rewrite Eb; discriminate.
  fold (seen x1). set (E := mkEnv (seen x1) F (original_position r)).
  destruct (op E o s) as [[] s1|e s1|] eqn:Eo; cbn [of_visit obind].
  2,3: apply Stop; [intros y; discriminate|]; intros l y; cbn [crun]; rewrite Eb; cbn [obind]; fold E; rewrite Eo; discriminate.
  pose proof (op_kinds E o s s1 Eo) as Hk1. specialize (IH r1 s1 (cs_visit o c) x1). rewrite Hl1, Hc, <- Hk1 in IH. specialize (IH eq_refl Hw1 Hg1).
  destruct (ops_collect n (cs_visit o c) r1) as [[[ops c'] r']|e]; [|exact I]. cbn [fst snd].
  destruct IH as (l & H1 & H2 & H4 & H5 & H6). exists ((original_position r, o) :: l). cbn [map snd crun forallb]. rewrite Eb. cbn [obind]. fold E. rewrite Eo. cbn [of_visit obind].
  split; [rewrite H1; reflexivity|]. split; [constructor; [cbn; destruct Hg; lia|exact H2]|]. split; [constructor; assumption|].
  split; [|exact H6]. intros Hi. apply andb_prop in Hi. destruct Hi as [Hi1 Hi2]. rewrite Hl. constructor; [exact Hi1|rewrite <- Hk; exact Hf|].
  rewrite <- Hl, Hc, <- Hk1. apply H5. exact Hi2.
Qed.

(** With all features, what is asked of an operator besides its type is what the specification asks. *)
Hypothesis HF : forall f, f <> f_custom_descriptors -> F f = true.
Hypothesis HG : forall g, G g = true.
Definition refer (st : mstate) (l : list Z) : mstate := with_mod st (set_references (ms_mod st) (md_references (ms_mod st) ++ l)).
Lemma refer_nil st : refer st [] = st.
Proof. destruct st as [s [] i e z c f]. unfold refer, with_mod, set_references. cbn. rewrite app_nil_r. reflexivity. Qed.
Lemma refer_app st a b : refer (refer st a) b = refer st (a ++ b).
Proof. unfold refer. cbn. rewrite app_assoc. reflexivity. Qed.
Lemma refer_frozen st l : ms_frozen (refer st l) = ms_frozen st. Proof. reflexivity. Qed.
Lemma before_all o x : (ms_frozen (fst x) = true -> forall i, o <> Op_RefFunc i) -> forall y,
  (const_before F G pos o x = Done y <->
   const_op (seen x) o /\ y = (refer (fst x) (expr_refs [o]), snd x)).
Proof.
  assert (N : forall f msg, f <> f_custom_descriptors -> need F pos f msg = Done tt) by (intros f msg H; unfold need, check; rewrite HF by exact H; reflexivity).
  assert (NM : forall g msg, needm G pos g msg = Done tt) by (intros g msg; unfold needm, check; rewrite HG; reflexivity).
  intros Hfr y. destruct x as [st b]. cbn [fst snd] in *.
  assert (D : Done (st, b) = Done y <-> True /\ y = (refer st [], b)) by (rewrite refer_nil; split; [intros H; injection H as <-; auto|intros [_ ->]; reflexivity]).
  destruct o; cbn [const_before const_op expr_refs flat_map app fst snd]; try exact D; try (split; [discriminate|intros [[] _]]);
    try (rewrite N by discriminate; exact D); try (rewrite NM; exact D).
  - unfold const_global, seen. cbn [fst module_resources r_global_at]. destruct (nthz (md_globals (ms_mod st)) global_index) as [g|].
    2: { split; [discriminate|]. intros ((g & H & _) & _). discriminate. }
    assert (M : (if ms_globals_imported st <=? global_index then need F pos f_gc "constant expression required: global.get of locally defined global" else Done tt) = Done tt)
      by (destruct (_ <=? _); [apply N; discriminate|reflexivity]).
    rewrite M. cbn [obind]. unfold check. destruct (gl_mut g) eqn:Em; cbn [negb].
    + split; [discriminate|]. intros ((g' & H & K) & _). injection H as <-. congruence.
    + rewrite refer_nil. split; [intros H; injection H as <-; split; [eauto|reflexivity]|intros [_ ->]; reflexivity].
  - unfold insert_ref. cbn [fst snd]. destruct (ms_frozen st) eqn:Ef; [exfalso; exact (Hfr eq_refl _ eq_refl)|].
    change (add_reference st function_index) with (refer st [function_index]). split; [intros H; injection H as <-; auto|intros [_ ->]; reflexivity].
Qed.
Lemma const_op_cop M o : const_op M o -> cop o = true. Proof. destruct o; cbn; try reflexivity; contradiction. Qed.
Lemma const_op_mod s m m' o : md_globals m = md_globals m' -> (const_op (module_resources s m) o <-> const_op (module_resources s m') o).
Proof. intros E. destruct o; cbn; try tauto. rewrite E. tauto. Qed.
Lemma expr_refs_cons o l : expr_refs (o :: l) = expr_refs [o] ++ expr_refs l.
Proof. unfold expr_refs. cbn [flat_map]. rewrite app_nil_r. reflexivity. Qed.
Lemma crun_all : forall l s x rs, (ms_frozen (fst x) = true -> expr_refs (map snd l) = []) -> incl (expr_refs (map snd l)) rs -> forall y,
  let M := module_resources (ms_store (fst x)) (cmod (ms_mod (fst x)) rs) in
  (crun l s x = Done y <->
   Forall (const_op M) (map snd l) /\ (exists s', run M F l s = VOk tt s') /\ y = (refer (fst x) (expr_refs (map snd l)), snd x)).
Proof.
  induction l as [|[a o] l IH]; intros s x rs Hfr Hin y M.
  { cbn [crun map run expr_refs flat_map]. rewrite refer_nil. split; [intros H; injection H as <-; split; [constructor|split; [exists s; reflexivity|destruct x; reflexivity]]|]. intros (_ & _ & ->). destruct x; reflexivity. }
  cbn [crun map snd run]. cbn [map snd] in Hfr, Hin. rewrite expr_refs_cons in Hfr, Hin |- *.
  assert (Ho : ms_frozen (fst x) = true -> forall i, o <> Op_RefFunc i) by (intros Hx i ->; specialize (Hfr Hx); discriminate).
  pose proof (before_all o x Ho) as B.
  assert (Mo : const_op (seen x) o <-> const_op M o) by (apply const_op_mod; reflexivity).
  destruct (const_before F G pos o x) as [x1|e|] eqn:Eb; cbn [obind].
  2,3: split; [discriminate|]; intros (H & _); apply Forall_inv in H; apply Mo in H; assert (K := proj2 (B _) (conj H eq_refl)); discriminate.
  destruct (proj1 (B x1) eq_refl) as [Hop Hx1].
  assert (Hst : ms_store (fst x1) = ms_store (fst x) /\ cmod (ms_mod (fst x1)) rs = cmod (ms_mod (fst x)) rs /\ ms_frozen (fst x1) = ms_frozen (fst x)) by (rewrite Hx1; repeat split).
  destruct Hst as (Hs1 & Hm1 & Hf1).
  assert (Eo : op (mkEnv (seen x1) F a) o s = op (mkEnv M F a) o s).
  { unfold seen, M. rewrite <- Hm1, <- Hs1. apply op_same; [exact (const_op_cop _ _ Hop)|]. intros i ->. split; [apply Hin; left; reflexivity|].
    rewrite Hx1. cbn [fst refer ms_mod with_mod set_references md_references]. apply in_app_iff. right. left. reflexivity. }
  rewrite Eo. unfold vbind. destruct (op (mkEnv M F a) o s) as [[] s1|e s1|]; cbn [of_visit obind].
  2,3: split; [discriminate|]; intros (_ & (s' & K) & _); discriminate.
  specialize (IH s1 x1 rs). rewrite Hf1, Hs1, Hm1 in IH. specialize (IH (fun H => proj2 (app_eq_nil _ _ (Hfr H))) (fun i Hi => Hin i (in_or_app _ _ _ (or_intror Hi))) y).
  cbv zeta in IH. fold M in IH. rewrite IH. rewrite Hx1. cbn [fst snd]. rewrite refer_app. split.
  - intros (H1 & H2 & ->). split; [constructor; [apply Mo; exact Hop|exact H1]|]. auto.
  - intros (H1 & H2 & ->). apply Forall_inv_tail in H1. auto.
Qed.
(** A module that is no longer changed: an expression that refers to a function is not accepted. *)
Lemma crun_frozen : forall l s x y, ms_frozen (fst x) = true -> crun l s x = Done y -> snd y = false -> snd x = false /\ expr_refs (map snd l) = [].
Proof.
  induction l as [|[a o] l IH]; intros s x y Hfr E Hy; cbn [crun] in E.
  { injection E as <-. auto. }
  destruct (const_before F G pos o x) as [x1| |] eqn:Eb; try discriminate. cbn [obind] in E. destruct (of_visit _) as [s1| |]; try discriminate. cbn [obind] in E.
  assert (Hc : (exists i, o = Op_RefFunc i /\ x1 = (fst x, true)) \/ (expr_refs [o] = [] /\ x1 = x)).
  { clear - Hfr Eb. unfold const_before in Eb. destruct o; try discriminate Eb;
      try (right; split; [reflexivity|]; injection Eb as <-; reflexivity);
      try (right; split; [reflexivity|]; first [destruct (need F pos _ _) as [[]| |]|destruct (needm G pos _ _) as [[]| |]|destruct (const_global F pos _ _) as [[]| |]]; cbn [obind] in Eb; try discriminate; injection Eb as <-; reflexivity).
    left. unfold insert_ref in Eb. rewrite Hfr in Eb. injection Eb as <-. eauto. }
  destruct Hc as [(i & -> & ->)|[Hc ->]].
  - destruct (IH _ _ _ (Hfr : ms_frozen (fst (fst x, true)) = true) E Hy) as [K _]. discriminate.
  - destruct (IH _ _ _ Hfr E Hy) as [K1 K2]. split; [exact K1|]. cbn [map snd]. rewrite expr_refs_cons, Hc, K2. reflexivity.
Qed.
End Run.

(** * Types *)
Section Typed.
Variable R : resources.
Variable F : feature -> bool.
Hypothesis HM : res_ok R.
Hypothesis HF : forall f, f <> f_custom_descriptors -> F f = true.
Notation exact := (F f_custom_descriptors).
Definition cctx (t : val) : ctx := mkCtx R exact false [] [[t]] [t].
Lemma const_inst t : inst (cctx t) [] (new_const_expr t) false [] [].
Proof.
  split; cbn [new_const_expr vs_control vs_operands vs_shared vs_locals vs_inits cctx cx_labels cx_return cx_shared cx_locals].
  - split; [reflexivity|]. eexists _, []. split; [reflexivity|]. cbn. auto.
  - constructor; [reflexivity|constructor].
  - exists [], (mkFrame FBlock (BType t) 0 false 0). split; reflexivity.
  - reflexivity.
  - intros i Hi. apply stands_get; [apply stands_empty|exact Hi].
  - apply iwf_empty.
  - intros i Hi Hlt. cbn in Hlt. lia.
Qed.
Lemma const_run t es l at_ : covered_es es = true -> map snd l = flatten es -> nz l -> at_ <> 0 ->
  match run R F (l ++ [(at_, Op_End)]) (new_const_expr t) with
  | VOk _ s' => exists xs, es_ok (cctx t) [] es [] xs [DVal t]
  | _ => forall xs, ~ es_ok (cctx t) [] es [] xs [DVal t]
  end.
Proof.
  intros Hcov Hl Hnz Ha. pose proof (const_inst t) as In. set (C := cctx t) in *. set (s := new_const_expr t) in *.
  assert (HMC : res_ok (cx_mod C)) by exact HM. assert (HRC : envs R F C) by (apply envs_ctx; assumption).
  pose proof (run_ok R F es Hcov C _ l s false [] [] HMC HRC Hl Hnz In) as Rk. rewrite run_app. unfold vbind.
  destruct (run R F l s) as [[] s1|e s1|]; cbn [ok_run] in Rk.
  2,3: intros xs K; apply (body_stuck C HMC [] es [] [t] Rk); exists xs; exact K.
  destruct Rk as (u' & seg' & In' & Kp & Sm).
  assert (Sem : sem C u' seg' (dv (rev [t])) <-> body_ok C [] es [] [t]) by (apply body_sem; [exact HMC|exact Sm]).
  destruct Kp as [(fr & fr' & rest & K1 & K2 & (K3 & K4 & K5 & K6)) Kx]. injection K1 as <- <-. cbn [fr_kind fr_block fr_height fr_init_height] in *.
  assert (Hb : bresults C (fr_block fr') = Some [t]) by (rewrite K4; reflexivity).
  destruct (Kx (vs_inits s) (ext_refl _)) as (und & Hund).
  assert (Hh : inits_height (vs_inits s) = 0%nat) by reflexivity. rewrite Hh, <- K6 in Hund.
  pose proof (pop_ctrl_ok (mkEnv R F at_) C HMC (HRC at_ Ha) s1 u' seg' [] fr' [] [t] (vs_inits s) und (in_view _ _ _ _ _ _ In') (in_shared _ _ _ _ _ _ In') K2 Hb Hund) as Pc.
  cbn [run]. unfold vbind, op. rewrite (visit_free (mkEnv R F at_) Op_End eq_refl). cbn [visit_op]. unfold visit_end, vbind.
  destruct (pop_ctrl (mkEnv R F at_) s1) as [fr2 s2|e s2|]; [|intros xs K; apply Pc, Sem; exists xs; exact K..].
  destruct Pc as (P1 & -> & P2 & P3 & P4 & P5 & P6). apply Sem in P1. destruct P1 as (xs & P1).
  rewrite K3. cbn [is_if]. unfold vret at 1. pose proof (look_results (mkEnv R F at_) C (HRC at_ Ha) (fr_block fr') s2) as Lr.
  assert (Hinv : inv C s2) by (unfold inv; rewrite P6; exact (in_shared _ _ _ _ _ _ In')). specialize (Lr Hinv).
  destruct (results (mkEnv R F at_) (fr_block fr') s2) as [us s3|e s3|]; [|congruence..]. destruct Lr as [-> Lr]. rewrite Hb in Lr. injection Lr as <-.
  destruct (pushes_any [t] s2) as (s4 & -> & Hc4). unfold vget. rewrite Hc4, P3. cbn [e_at]. destruct (Z.eqb_spec at_ 0); [contradiction|]. unfold vret. eauto.
Qed.
Lemma const_typed t l : nz l -> sensibles (map snd l) -> forallb has_rule (map snd l) = true ->
  (forallb in_scope (map snd l) = true -> path [FBlock] (map snd l) []) ->
  ((exists s', run R F l (new_const_expr t) = VOk tt s') <-> exists es xs, map snd l = flatten es ++ [Op_End] /\ es_ok (cctx t) [] es [] xs [DVal t]).
Proof.
  intros Hnz Hse Hru Hp.
  assert (Hsc : forallb in_scope (map snd l) = true).
  { apply forallb_forall. intros o Ho. apply rule_scope; [exact (proj1 (forallb_forall _ _) Hru o Ho)|exact (proj1 (Forall_forall _ _) Hse o Ho)]. }
  specialize (Hp Hsc).
  assert (Body : forall es, map snd l = flatten es ++ [Op_End] -> covered_es es = true ->
      match run R F l (new_const_expr t) with
      | VOk _ s' => exists xs, es_ok (cctx t) [] es [] xs [DVal t]
      | _ => forall xs, ~ es_ok (cctx t) [] es [] xs [DVal t]
      end).
  { intros es Hl Hc. apply map_eq_app in Hl. destruct Hl as (l1 & l2 & -> & Hl1 & Hl2). destruct l2 as [|[a o] [|]]; try discriminate. injection Hl2 as ->.
    apply Forall_app in Hnz. destruct Hnz as [Hn1 Hn2]. apply Forall_inv in Hn2. cbn [fst] in Hn2. apply const_run; assumption. }
  split.
  - intros (s' & K). destruct (nest_body _ Hp) as (es & He & Hc). specialize (Body es He Hc). rewrite K in Body. destruct Body as (xs & Body). exists es, xs. auto.
  - intros (es & xs & He & Hes). assert (Hc : covered_es es = true).
    { apply ruled_covered; [exact (es_ruled _ _ _ _ _ _ Hes)|]. rewrite He, forallb_app in Hsc. apply andb_prop in Hsc. tauto. }
    specialize (Body es He Hc). destruct (run R F l _) as [[] s2| |]; [eauto|exfalso; exact (Body xs Hes)..].
Qed.
End Typed.

(** An expression of a number type refers to no function: what takes a reference gives one. *)
Definition vals (l : list dt) : Prop := Forall (fun d => exists v, d = DVal v) l.
Definition some_ref (l : list dt) : Prop := Exists (fun d => exists r, d = DVal (VRef r)) l.
Lemma dsub_val C a d : dsub C (DVal a) d -> exists b, d = DVal b. Proof. destruct d; cbn; try contradiction. eauto. Qed.
Lemma dsubs_vals C l l' : dsubs C l l' -> vals l -> vals l'.
Proof. induction 1 as [|a b l l' H H' IH]; intros V; [constructor|]. inversion V as [|? ? (v & ->) V']; subst. constructor; [exact (dsub_val _ _ _ H)|exact (IH V')]. Qed.
Lemma dsubs_refs C l l' : res_ok (cx_mod C) -> dsubs C l l' -> vals l -> some_ref l -> some_ref l'.
Proof.
  intros HM. induction 1 as [|a b l l' H H' IH]; intros V K; [inversion K|]. inversion V as [|? ? (v & ->) V']; subst.
  inversion K as [? ? (r & Hr)|? ? K']; subst; [|right; exact (IH V' K')]. injection Hr as ->. left. destruct b as [| | |b]; try contradiction. cbn [dsub] in H. unfold sub in H.
  destruct (is_ref b) eqn:Eb; [destruct b; try discriminate; eauto|]. rewrite (ro_num _ HM) in H by (rewrite Eb, Bool.andb_false_r; reflexivity).
  unfold val_eqb in H. destruct (vty_dec _ _ _) as [<-|]; [discriminate Eb|discriminate H].
Qed.
Lemma vals_dv l : vals (dv l). Proof. apply Forall_map, Forall_forall. eauto. Qed.
Lemma sig_refs C o ins outs : cop o = true -> sig C o = Some (ins, outs) ->
  (some_ref (dv ins) \/ (exists i, o = Op_RefFunc i)) -> some_ref (dv outs).
Proof.
  intros Hc E K.
  assert (Z1 : forall b l, is_ref b = false -> ~ some_ref l -> ~ some_ref (DVal b :: l)).
  { intros b l Hb Hl H. inversion H as [? ? (x & Hx)|? ? H']; subst; [injection Hx as ->; discriminate Hb|exact (Hl H')]. }
  assert (Z0 : ~ some_ref []) by (intros H; inversion H).
  assert (No : forall l, l = [] \/ l = [VI32] \/ l = [VI32; VI32] \/ l = [VI64; VI64] -> ~ some_ref (dv l)).
  { intros l [->|[->|[->| ->]]]; cbn [map]; repeat (apply Z1; [reflexivity|]); exact Z0. }
  assert (Nr : forall t, new_type C t <> None -> forall v, new_type C t = Some v -> exists r, v = VRef r).
  { intros t _ v. unfold new_type. destruct (reference C _); [|discriminate]. intros H. injection H as <-. eauto. }
  assert (Yes : forall r, some_ref (dv [VRef r])) by (intros r; left; eauto).
  destruct o; try discriminate Hc; cbn in E;
    try (injection E as <- <-; destruct K as [K|(i & K)]; [exfalso; revert K; apply No; auto|discriminate]).
  all: unfold guard in E; repeat match type of E with match ?x with _ => _ end = _ => destruct x eqn:?; try discriminate E | (if ?x then _ else _) = _ => destruct x eqn:?; try discriminate E end;
    try (injection E as <- <-).
  all: try apply Yes; try discriminate.
  all: try (match goal with H : new_type _ ?i = Some ?v |- _ => destruct (Nr i ltac:(congruence) v H) as (r & ->) end; apply Yes).
  destruct K as [K|(i & K)]; [exfalso; exact (Z0 K)|discriminate].
Qed.
Lemma some_ref_app l l' : some_ref (l ++ l') <-> some_ref l \/ some_ref l'. Proof. apply Exists_app. Qed.
Definition gives (C : ctx) (ops : list operator) (ts us : list dt) : Prop :=
  res_ok (cx_mod C) -> forallb cop ops = true -> vals ts -> vals us /\ (some_ref ts \/ expr_refs ops <> [] -> some_ref us).
Lemma es_refs C X es ts xs us : es_ok C X es ts xs us -> gives C (flatten es) ts us.
Proof.
  apply (es_ok_mut (fun C _ i ts _ us => gives C (flatten_i i) ts us) (fun C _ es ts _ us => gives C (flatten es) ts us)); clear; intros; unfold gives in *; cbn [flatten_i flatten] in *; intros HM Hc Hv;
    try discriminate Hc.
  - cbn [forallb] in Hc. rewrite Bool.andb_true_r in Hc. split; [apply vals_dv|]. intros K. apply (sig_refs C o ins outs Hc H). destruct K as [K|K]; [auto|]. right.
    unfold expr_refs in K. cbn in K. destruct o; try (exfalso; apply K; reflexivity). eauto.
  - destruct o; try contradiction; discriminate.
  - destruct H as [-> | ->]; discriminate.
  - split; [repeat constructor; eauto|]. intros _. left. eauto.
  - inversion Hv as [|? ? (v & Hv') _]. discriminate.
  - inversion Hv as [|? ? (v & Hv') _]. discriminate.
  - split; [repeat constructor; eauto|]. intros _. left. eauto.
  - split; [constructor|]. cbn. intros [K|K]; [exact K|contradiction].
  - rewrite app_nil_r in *. auto.
  - assert (Ef : flatten (es ++ es') = flatten es ++ flatten es').
    { clear. induction es as [|e es IH]; [reflexivity|]. cbn [app flatten]. rewrite IH, app_assoc. reflexivity. }
    rewrite Ef in *. rewrite forallb_app in Hc. apply andb_prop in Hc. destruct Hc as [Hc Hc']. destruct (H0 HM Hc Hv) as [V1 R1]. destruct (H2 HM Hc' V1) as [V2 R2].
    split; [exact V2|]. intros K. apply R2. unfold expr_refs in *. rewrite flat_map_app in K.
    destruct K as [K|K]; [left; apply R1; auto|]. destruct (flat_map _ (flatten es)) eqn:E1 in K; [right; exact K|left; apply R1; right; rewrite E1; discriminate].
  - apply Forall_app in Hv. destruct Hv as [V1 V2]. destruct (H0 HM Hc V2) as [V3 R3]. split; [apply Forall_app; auto|]. rewrite !some_ref_app. tauto.
  - pose proof (dsubs_vals _ _ _ H1 Hv) as V1. destruct (H0 HM Hc V1) as [V2 R2]. split; [exact (dsubs_vals _ _ _ H2 V2)|].
    intros K. apply (dsubs_refs _ _ _ HM H2 V2), R2. destruct K as [K|K]; [left; exact (dsubs_refs _ _ _ HM H1 Hv K)|right; exact K].
Qed.
Lemma number_no_refs C es xs t : res_ok (cx_mod C) -> es_ok C [] es [] xs [DVal t] -> forallb cop (flatten es) = true -> is_ref t = false -> expr_refs (flatten es ++ [Op_End]) = [].
Proof.
  intros HM H Hc Ht. destruct (es_refs _ _ _ _ _ _ H HM Hc ltac:(constructor)) as [_ K].
  unfold expr_refs in *. rewrite flat_map_app. cbn [flat_map]. rewrite app_nil_r. destruct (flat_map _ (flatten es)) as [|i l]; [reflexivity|]. exfalso.
  assert (S : some_ref [DVal t]) by (apply K; right; discriminate). inversion S as [? ? (r & Hr)|? ? S']; subst; [injection Hr as ->; discriminate Ht|inversion S'].
Qed.

(** * A constant expression given by its bytes *)
Section Check.
Variable F : feature -> bool.
Variable G : m_feature -> bool.
Variable ft : features.
Variable pos : Z.
Hypothesis HF : forall f, f <> f_custom_descriptors -> F f = true.
Hypothesis HG : forall g, G g = true.
Hypothesis Hpos : 0 < pos.
Lemma check_const_iff st b t rs ops : let M := module_resources (ms_store st) (cmod (ms_mod st) rs) in
  res_ok M -> bytes_ok b -> d_expr ft pos b = Some ops -> forallb has_rule ops = true -> (ms_frozen st = true -> is_ref t = false) -> incl (expr_refs ops) rs ->
  forall st', check_const F G ft pos st b t = Done st' <-> const_ok (F f_custom_descriptors) M t ops /\ st' = refer st (expr_refs ops).
Proof.
  intros M HM Hb Hd Hru Hfr Hin st'. destruct (expr_collect _ _ _ _ Hd) as (c' & r' & Ec & Ek).
  assert (Hg : good (new_reader ft b pos)) by (split; [exact Hb|unfold original_position, new_reader; cbn [r_off r_pos]; lia]).
  pose proof (const_collect F G pos (List.length b) (new_reader ft b pos) (new_const_expr t) cs_new (st, false) eq_refl ltac:(intros K; discriminate K) Hg) as Cc.
  rewrite Ec in Cc. destruct Cc as (l & Hl & Hnz & Hse & Hp & Hloop). rewrite Ek in Hp. subst ops.
  pose proof (const_typed M F HM HF t l Hnz Hse Hru Hp) as Ty. unfold check_const. unfold cctx in Ty.
  assert (A : forall y, (ms_frozen st = true -> expr_refs (map snd l) = []) -> (const_loop F G pos (List.length b) (new_reader ft b pos) (new_const_expr t) (st, false) = Done y <->
     const_ok (F f_custom_descriptors) M t (map snd l) /\ y = (refer st (expr_refs (map snd l)), false))).
  { intros y Hx. rewrite Hloop, (crun_all F G pos HF HG l _ (st, false) rs Hx Hin y). cbn [fst snd]. fold M. unfold const_ok. rewrite Ty. tauto. }
  split.
  - destruct (const_loop F G pos _ _ _ (st, false)) as [[st1 missed]|e|] eqn:El; cbn [obind]; try discriminate. destruct missed; [discriminate|]. intros H. injection H as <-.
    assert (Hx : ms_frozen st = true -> expr_refs (map snd l) = []).
    { intros Hx. exact (proj2 (crun_frozen F G pos l _ (st, false) _ Hx (proj1 (Hloop _) eq_refl) eq_refl)). }
    destruct (proj1 (A _ Hx) eq_refl) as [K1 K2]. injection K2 as ->. auto.
  - intros [K ->]. assert (Hx : ms_frozen st = true -> expr_refs (map snd l) = []).
    { intros Hx. destruct K as (Kc & es & xs & He & Hes). rewrite He. refine (number_no_refs (cctx M F t) es xs t HM Hes _ (Hfr Hx)).
      rewrite He in Kc. apply Forall_app in Kc. destruct Kc as [Kc _]. apply forallb_forall. intros o Ho. exact (const_op_cop _ _ (proj1 (Forall_forall _ _) Kc o Ho)). }
    rewrite (proj2 (A _ Hx) (conj K eq_refl)). reflexivity.
Qed.
End Check.
