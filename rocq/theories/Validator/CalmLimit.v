(** A validator that has seen 1048576 types, and then a module with one function type. *)
From Verif.Base Require Import Prelude.
From Verif.Reader Require Import Model.
From Verif.Types Require Import RefModel CodecModel CanonModel CanonSpec CanonLemmas CanonSub CanonChecks CanonTop CanonPanic.
From Verif.Instr Require Import ImmModel Ops BodyModel.
From Verif.Validator Require Import State Checks Api Body Module Calm CalmModule.

(** The type of functions without parameters or results, and a module with one such function. *)
Definition FT : subty Z := mkS true None (mkC (IFunc [] []) false None None).
Definition one_type (id : Z) : modul := mkModul [id] [0] [] [] [] [] [] None [] 0 [].
(** No locals; ref.null 0; drop; end. *)
Definition null_body : list Z := [0; 0xd0; 0x00; 0x1a; 0x0b].

Lemma crowded : exists w, reached [AddGroup 0 fillA; AddGroup 1 fillB; AddGroup 2 [FT]] w /\ w_scope w 2 = [2 ^ 20] /\ nthz (st_types (w_store w)) (2 ^ 20) = Some FT.
Proof.
  destruct filled as (w & R & ET & ES).
  assert (LA : zlen fillA = 1000000) by (apply zlen_repeat; lia). assert (LB : zlen fillB = 48576) by (apply zlen_repeat; lia).
  assert (L : zlen (st_types (w_store w)) = 2 ^ 20) by (rewrite ET, zlen_app, LA, LB; reflexivity).
  destruct (reached_inv _ w R) as (gs & D & V & F).
  assert (Ec : canon_group [] [FT] = CanonModel.Done [mkS true None (mkC (IFunc [] []) false None None)]) by reflexivity.
  assert (St : exists w', step w (AddGroup 2 [FT]) = CanonModel.Done w' /\ w_scope w' 2 = [2 ^ 20] /\ nthz (st_types (w_store w')) (2 ^ 20) = Some FT).
  { cbn [step]. rewrite ES. unfold add_group. change (limits_MAX_WASM_TYPES - zlen [] <? zlen [FT]) with false. cbv iota. rewrite Ec. cbn [CanonModel.obind]. unfold intern.
    assert (LR : zlen (st_ranges (w_store w)) <= 2 ^ 20 + 1).
    { destruct (built_len _ _ _ _ _ (i_built _ _ _ V)) as (_ & E & _ & B). destruct (in_dec group_dec [] gs); lia. }
    destruct (Z.ltb_spec (zlen (st_ranges (w_store w))) (2 ^ 32)); [| lia].
    destruct (find_group _ (st_canon (w_store w))) as [gid|] eqn:Ef.
    - exfalso. destruct (slice_of_find _ _ _ _ _ _ _ V Ec Ef) as (pre & post & X).
      assert (Hin : In (m_sub (place [] (zlen pre)) FT) (fillA ++ fillB)) by (rewrite <- ET, X; apply in_or_app; right; left; reflexivity).
      apply in_app_or in Hin. destruct Hin as [Hi|Hi]; apply repeat_spec in Hi; discriminate.
    - rewrite L. change (2 ^ 20 <? 2 ^ 32) with true. cbv iota.
      change (t_list (t_sub (to_id (2 ^ 20))) [mkS true None (mkC (IFunc [] []) false None None)]) with (CanonModel.Done [FT]). cbn [CanonModel.obind].
      rewrite zlen_app, L. change (2 ^ 20 + zlen [FT]) with (2 ^ 20 + 1). change (2 ^ 20 + 1 <? 2 ^ 32) with true. cbv iota. cbn [CanonModel.obind].
      cbn [st_ranges]. rewrite nthz_app_r by lia. rewrite Z.sub_diag. change (nthz [(2 ^ 20, 2 ^ 20 + 1)] 0) with (Some (2 ^ 20, 2 ^ 20 + 1)). cbn [unwrap CanonModel.obind fst snd].
      change (Z.to_nat (2 ^ 20 + 1 - 2 ^ 20)) with 1%nat. cbn [add_ids].
      assert (Tq : nthz (st_types (w_store w) ++ [FT]) (2 ^ 20) = Some FT) by (rewrite nthz_app_r by lia; rewrite L; reflexivity).
      unfold check_subtype, type_at. cbn [st_types]. rewrite Tq. cbn [unwrap CanonModel.obind].
      change (check_composite _ (s_comp FT)) with (CanonModel.Done tt). cbn [CanonModel.obind s_super FT]. unfold set_depth. cbn [CanonModel.obind].
      unfold check_descriptors, type_at. cbn [st_types]. rewrite Tq. cbn. eexists. split; [reflexivity|]. cbn. split; [reflexivity|]. exact Tq. }
  destruct St as (w' & Hw & H1 & H2). exists w'. split; [|split; assumption].
  unfold reached in *. change [AddGroup 0 fillA; AddGroup 1 fillB; AddGroup 2 [FT]] with ([AddGroup 0 fillA; AddGroup 1 fillB] ++ [AddGroup 2 [FT]]).
  revert R. generalize start_world. generalize [AddGroup 0 fillA; AddGroup 1 fillB]. intros h. induction h as [|e h IH]; intros w0 R; cbn [run app] in *.
  - injection R as ->. rewrite Hw. reflexivity.
  - apply obind_done in R. destruct R as (w1 & E1 & R). rewrite E1. cbn [CanonModel.obind]. apply IH. assumption.
Qed.
(** A body that asks for a reference to a type whose id does not fit. *)
Lemma null_panics (R : resources) start off :
  r_sub_type_at R 0 = Some (m_sub UId FT) -> (forall a, r_check_heap_type R (HC (UModule 0)) a = Ok (HC (UId (2 ^ 20)))) ->
  validate R (fun _ => true) all_features start 0 off null_body = Body.Panicked.
Proof.
  intros H1 H2. set (Fe := fun _ : feature => true). unfold validate, new_func. cbn [e_res]. rewrite H1. change (c_inner (s_comp (m_sub UId FT))) with (@IFunc uidx [] []). cbn [of_read obind].
  set (rd := read_var_u32 _). vm_compute in rd. subst rd. cbn [of_read obind]. change (Z.to_nat 0) with 0%nat. cbn [locals_loop obind r_rem List.length].
  cbn [ops_loop]. set (ef := eof _). vm_compute in ef. subst ef. cbv iota.
  set (ro := Visit.visit_operator _ _). vm_compute in ro. subst ro. cbn [of_read obind].
  set (k := op _ _ _). assert (Ek : k = VPanic); [|rewrite Ek; reflexivity].
  subst k. set (s := mkVst _ _ _ _ _ _ _). set (En := mkEnv _ _ _). transitivity (visit_ref_null En (HConcrete (UModule 0)) s); [reflexivity|]. unfold visit_ref_null.
  change (of_heap (HConcrete (UModule 0))) with (@HC uidx (UModule 0)). set (fst_part := match r_new true _ with Some _ => _ | None => _ end). assert (Ef : fst_part s = VOk tt s) by reflexivity.
  unfold vbind at 1. rewrite Ef. unfold vbind, check_heap_type, vlift. subst En. cbn [e_res e_at]. rewrite H2. reflexivity.
Qed.
