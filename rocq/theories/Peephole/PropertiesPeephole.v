(** C33: with [preserve_semantics] on, the peephole mutator of wasm-mutate
    replaces an expression by one that does the same.

    [holds lt gt rules t0 (Same t0 t1)]: the e-graph that starts with [t0] may
    come to hold [t1] in the class of [t0], so the mutator may replace [t0] by
    [t1].  [compile] turns a term back into instructions and [exec] runs them. *)
From Coq Require Import ZArith Lia List Bool String SpecFloat.
From Verif Require Import Base.Prelude Peephole.Flt Peephole.Machine Peephole.Lang Peephole.Sem Peephole.Sound Peephole.Egraph.
Import ListNotations.
Open Scope Z_scope.

(** The mutator, run on [t0] with [rules], may put [t1] in its place. *)
Definition may_replace (lt gt : list prim) (rules : list rule) (t0 t1 : term) : Prop :=
  holds lt gt rules t0 (Same t0 t1).

(** From [s], whatever random numbers are drawn, the code of [t1] ends as the
    code of [t0] does: both trap, or both run to states that agree on the
    operand stack, the locals, the memory and the [gt] globals of the module. *)
Definition preserves (gt : list prim) (t0 t1 : term) (s : state) : Prop :=
  forall rnd k g, (List.length gt <= g)%nat ->
  exists c0 k0 g0 c1 k1 g1,
    compile rnd t0 k g = Some (c0, k0, g0) /\ compile rnd t1 k g = Some (c1, k1, g1) /\
    same_outcome (List.length gt) (exec c0 s) (exec c1 s).

(** The full statement is [forall reduce gcount lt gt t0 p, wt lt gt t0 p -> forall
    t1, may_replace lt gt (get_rules reduce gcount) t0 t1 -> forall s, state_ok lt gt
    s -> preserves gt t0 t1 s].  It is false: the refutations below.  It holds of
    expressions that cannot trap, for the rules other than the six named in
    [unsound_names]... *)
Theorem C33_preserved_partial : forall reduce gcount lt gt t0 p,
  wt lt gt t0 p -> trap_free t0 = true ->
  forall t1, may_replace lt gt (without unsound_names (get_rules reduce gcount)) t0 t1 ->
  forall s, state_ok lt gt s -> preserves gt t0 t1 s.
Proof.
  intros reduce gcount lt gt t0 p W F t1 H s HS rnd k g Hg.
  refine (egraph_preserves true lt gt _ t0 p W (fun _ => F) _ t1 H rnd k g s Hg HS).
  intros r Hr. apply (without_sound true reduce gcount). rewrite app_nil_r. exact Hr.
Qed.
Print Assumptions C33_preserved_partial.

(** ... and of every expression, traps included, if the three rules that throw an
    operand away are left out too. *)
Theorem C33_preserved_with_traps_partial : forall reduce gcount lt gt t0 p,
  wt lt gt t0 p ->
  forall t1, may_replace lt gt (without (unsound_names ++ dropping_names) (get_rules reduce gcount)) t0 t1 ->
  forall s, state_ok lt gt s -> preserves gt t0 t1 s.
Proof.
  intros reduce gcount lt gt t0 p W t1 H s HS rnd k g Hg.
  refine (egraph_preserves false lt gt _ t0 p W _ _ t1 H rnd k g s Hg HS); [discriminate|].
  intros r Hr. exact (without_sound false reduce gcount r Hr).
Qed.
Print Assumptions C33_preserved_with_traps_partial.

(** Every rule, taken by itself, on operands of any value: all but the excluded
    ones are equations. *)
Theorem C33_rule_partial : forall reduce gcount r, In r (get_rules reduce gcount) ->
  ~ In (r_name r) unsound_names ->
  forall lt gt p (ops : nat -> term), wt lt gt (subst ops (r_lhs r)) p ->
  trap_free (subst ops (r_lhs r)) = true ->
  (forall v q, In (CType v q) (r_conds r) -> wt lt gt (ops v) q) ->
  (forall v, In (CConst v) (r_conds r) -> is_literal (ops v)) ->
  (forall b, In (CBool b) (r_conds r) -> b = true) ->
  forall s, state_ok lt gt s -> preserves gt (subst ops (r_lhs r)) (subst ops (r_rhs r)) s.
Proof.
  intros reduce gcount r Hr Nr lt gt p ops W F CT CC CB s HS rnd k g Hg.
  assert (In r (without unsound_names (get_rules reduce gcount))) as Hin.
  { apply filter_In. split; [exact Hr|]. apply negb_true_iff.
    destruct (existsb (String.eqb (r_name r)) unsound_names) eqn:X; [|reflexivity]. exfalso. apply Nr.
    apply existsb_exists in X as (n & Hn & En). apply String.eqb_eq in En. rewrite En. exact Hn. }
  assert (sound true r) as SR by (apply (without_sound true reduce gcount); rewrite app_nil_r; exact Hin).
  destruct (env_of_ok lt gt s HS) as (EO & ET & EA & EL). set (E := env_of gt s) in *.
  destruct (wt_sem true lt gt E _ p EO ET W (fun _ => F)) as (q & Sq & _ & Nq).
  assert (sem true E (subst ops (r_rhs r)) = Some q) as Sq'.
  { rewrite <- Sq. symmetry. apply SR; auto; [|congruence].
    intros v t Hv Nt u Su. specialize (CT v t Hv).
    assert (X : forall t p, wt lt gt t p -> forall u, sem true E t = Some u -> smty u = p).
    { clear - EO ET. intros t p Wt. induction Wt; intros u H'; cbn [sem bind] in H'.
      - inversion H'; reflexivity.
      - rewrite H in H'. inversion H'; reflexivity.
      - destruct ET as [TL _]. destruct (nth_error (e_locals E) n) eqn:X; inversion H'; subst.
        exact (Forall2_nth _ _ _ _ _ TL _ _ _ X H).
      - destruct ET as [_ TL]. destruct (nth_error (e_globals E) n) eqn:X; inversion H'; subst.
        exact (Forall2_nth _ _ _ _ _ TL _ _ _ X H).
      - inversion H'; reflexivity.
      - destruct (sem true E a) eqn:A; [|discriminate]. destruct (sem true E b) eqn:B; [|discriminate]. cbn [bind] in H'.
        apply sem_bin_ok in H'; [tauto|exact (sem_ok _ _ _ _ EO A)|exact (sem_ok _ _ _ _ EO B)].
      - destruct (sem true E a) eqn:A; [|discriminate]. cbn [bind] in H'.
        apply sem_conv_ok in H'; [tauto|exact (sem_ok _ _ _ _ EO A)].
      - destruct (sem true E a) eqn:A; [|discriminate]. destruct (sem true E b) eqn:B; [|discriminate].
        destruct (sem true E c) eqn:C; [|discriminate]. cbn [bind] in H'.
        apply sem_select_ok in H'; [|exact (sem_ok _ _ _ _ EO A)|exact (sem_ok _ _ _ _ EO B)|exact (sem_ok _ _ _ _ EO C)].
        rewrite <- (IHWt1 _ eq_refl). tauto.
      - destruct (sem true E a) as [[]|]; cbn in H'; try destruct p0; inversion H'; reflexivity.
      - inversion H'; reflexivity. }
    symmetry. eapply X; eauto. }
  destruct (compile_sem true E rnd _ q EO Sq k g) as (c0 & k0 & g0 & C0 & _ & R0); [rewrite EL; exact Hg|].
  destruct (compile_sem true E rnd _ q EO Sq' k g) as (c1 & k1 & g1 & C1 & _ & R1); [rewrite EL; exact Hg|].
  exists c0, k0, g0, c1, k1, g1. split; [exact C0|]. split; [exact C1|]. rewrite <- EL.
  eapply realises_same; eauto.
Qed.
Print Assumptions C33_rule_partial.

(** What goes wrong.  The expressions are well typed and of one colour (the
    mutator's own test of what may be rewritten together). *)
Definition differs (gt : list prim) (t0 t1 : term) : Prop :=
  exists s c0 c1, state_ok [] gt s /\
    (forall rnd k g, compile rnd t0 k g = Some (c0, k, g) /\ compile rnd t1 k g = Some (c1, k, g)) /\
    ~ same_outcome (List.length gt) (exec c0 s) (exec c1 s).

Definition s0 : state := mkState [] [] (fun _ => VI W32 0) 1 10.
Lemma s0_ok : state_ok [] [] s0.
Proof. split; [constructor|]. intros [|n] p H; discriminate H. Qed.

Lemma by_rule : forall lt gt rs r ops, In r rs -> r_conds r = [] ->
  may_replace lt gt rs (subst ops (r_lhs r)) (subst ops (r_rhs r)).
Proof.
  intros lt gt rs r ops H N. apply h_rule; [exact H|apply h_start| | | ]; rewrite N; intros; contradiction.
Qed.
Ltac find_rule := vm_compute; repeat (first [left; reflexivity | right]).
Definition ops3 (a b c : term) (n : nat) : term := match n with O => a | S O => b | _ => c end.

(** [i32.eq] is not associative: 2 == (2 == 1) is false, (2 == 2) == 1 is true. *)
Definition eq_0 : term := TBin (OI W32 Eq) (TI W32 2) (TBin (OI W32 Eq) (TI W32 2) (TI W32 1)).
Definition eq_1 : term := TBin (OI W32 Eq) (TBin (OI W32 Eq) (TI W32 2) (TI W32 2)) (TI W32 1).
Theorem C33_eq_associates_refuted : forall reduce gcount,
  one_colour eq_0 = true /\ wt [] [] eq_0 (PI W32) /\ trap_free eq_0 = true /\
  may_replace [] [] (get_rules reduce gcount) eq_0 eq_1 /\ differs [] eq_0 eq_1.
Proof.
  intros reduce gcount. split; [reflexivity|]. split.
  { apply (wt_bin [] [] (OI W32 Eq)); [apply wt_i|]. apply (wt_bin [] [] (OI W32 Eq)); apply wt_i. }
  split; [reflexivity|]. split.
  - apply (by_rule [] [] _ (mkRule "i32.eq-associates" (TBin (OI W32 Eq) vx (TBin (OI W32 Eq) vy vz)) (TBin (OI W32 Eq) (TBin (OI W32 Eq) vx vy) vz) [])
      (ops3 (TI W32 2) (TI W32 2) (TI W32 1))); [|reflexivity].
    unfold get_rules. apply in_or_app. right. apply in_or_app. right. apply in_or_app. left. find_rule.
  - eexists s0, _, _. split; [exact s0_ok|]. split; [intros; split; reflexivity|].
    vm_compute. intros (X & _). discriminate X.
Qed.
Print Assumptions C33_eq_associates_refuted.

(** Adding zero turns the float -0.0 into 0.0, so dropping the addition changes
    the result. *)
Definition fz_0 : term := TBin (OF F32 FAdd) (TF F32 (S754_zero true)) (TF F32 (S754_zero false)).
Definition fz_1 : term := TF F32 (S754_zero true).
Theorem C33_float_add_zero_refuted : forall reduce gcount,
  one_colour fz_0 = true /\ wt [] [] fz_0 (PF F32) /\ trap_free fz_0 = true /\
  may_replace [] [] (get_rules reduce gcount) fz_0 fz_1 /\ differs [] fz_0 fz_1.
Proof.
  intros reduce gcount. split; [reflexivity|]. split.
  { apply (wt_bin [] [] (OF F32 FAdd)); apply wt_f; reflexivity. }
  split; [reflexivity|]. split.
  - destruct reduce.
    + apply (by_rule [] [] _ (mkRule "f32-add-x-0" (f2 F32 FAdd vx (fzero F32)) vx [])
        (ops3 (TF F32 (S754_zero true)) vx vx)); [|reflexivity].
      unfold get_rules. apply in_or_app. left. find_rule.
    + refine (h_rule [] [] (get_rules false gcount) fz_0
        (mkRule "f32-add-x-0-rev" (f2 F32 FAdd vx (fzero F32)) vx [CType 0 (PF F32)])
        (ops3 (TF F32 (S754_zero true)) vx vx) _ (h_start _ _ _ _) _ _ _).
      * unfold get_rules. apply in_or_app. left. find_rule.
      * intros v p [X|[]]. inversion X; subst. cbn [ops3].
        eapply h_ty; [apply h_refl; eapply h_child; [apply h_start|apply ch_bin1]|reflexivity].
      * intros v [X|[]]. discriminate X.
      * intros v [X|[]]. discriminate X.
  - eexists s0, _, _. split; [exact s0_ok|]. split; [intros; split; reflexivity|].
    vm_compute. intros (X & _). discriminate X.
Qed.
Print Assumptions C33_float_add_zero_refuted.

(** [x | -1] is rewritten to [-1] and [select y y x] to [y] even if computing [x]
    traps. *)
Definition tr_0 : term := TBin (OI W32 Or) (TBin (OI W32 DivU) (TI W32 1) (TI W32 0)) (TI W32 (-1)).
Definition tr_1 : term := TI W32 (-1).
Definition se_0 : term := TSelect (TI W32 7) (TI W32 7) (TBin (OI W32 DivU) (TI W32 1) (TI W32 0)).
Definition se_1 : term := TI W32 7.
Theorem C33_trap_dropped_refuted : forall reduce gcount,
  (one_colour tr_0 = true /\ wt [] [] tr_0 (PI W32) /\
   may_replace [] [] (get_rules reduce gcount) tr_0 tr_1 /\ differs [] tr_0 tr_1) /\
  (one_colour se_0 = true /\ wt [] [] se_0 (PI W32) /\
   may_replace [] [] (get_rules reduce gcount) se_0 se_1 /\ differs [] se_0 se_1).
Proof.
  intros reduce gcount.
  assert (W : wt [] [] (TBin (OI W32 DivU) (TI W32 1) (TI W32 0)) (PI W32)) by (apply (wt_bin [] [] (OI W32 DivU)); apply wt_i).
  split.
  - split; [reflexivity|]. split; [apply (wt_bin [] [] (OI W32 Or)); [exact W|apply wt_i]|]. split.
    + apply (by_rule [] [] _ (mkRule "i32.or--1" (i2 W32 Or vx (TI W32 (-1))) (TI W32 (-1)) [])
        (ops3 (TBin (OI W32 DivU) (TI W32 1) (TI W32 0)) vx vx)); [|reflexivity].
      unfold get_rules. apply in_or_app. left. destruct reduce; find_rule.
    + eexists s0, _, _. split; [exact s0_ok|]. split; [intros; split; reflexivity|]. vm_compute. tauto.
  - split; [reflexivity|]. split; [apply wt_select; [discriminate|apply wt_i|apply wt_i|exact W]|]. split.
    + apply (by_rule [] [] _ (mkRule "select-same-branches" (TSelect vy vy vx) vy [])
        (ops3 (TBin (OI W32 DivU) (TI W32 1) (TI W32 0)) (TI W32 7) vx)); [|reflexivity].
      unfold get_rules. apply in_or_app. left. destruct reduce; find_rule.
    + eexists s0, _, _. split; [exact s0_ok|]. split; [intros; split; reflexivity|]. vm_compute. tauto.
Qed.
Print Assumptions C33_trap_dropped_refuted.

(** [memory.grow] does not end a colour (dfg.rs pushes it as an ordinary node),
    so it may be moved past [memory.size]. *)
Definition gr_0 : term := TBin (OI W32 Add) (TMemGrow (TI W32 1)) TMemSize.
Definition gr_1 : term := TBin (OI W32 Add) TMemSize (TMemGrow (TI W32 1)).
Theorem C33_memory_grow_refuted : forall reduce gcount,
  one_colour gr_0 = true /\ may_replace [] [] (get_rules reduce gcount) gr_0 gr_1 /\ differs [] gr_0 gr_1.
Proof.
  intros reduce gcount. split; [reflexivity|]. split.
  - apply (by_rule [] [] _ (mkRule "i32.add-commutes" (TBin (OI W32 Add) vx vy) (TBin (OI W32 Add) vy vx) [])
      (ops3 (TMemGrow (TI W32 1)) TMemSize vx)); [|reflexivity].
    unfold get_rules. apply in_or_app. right. apply in_or_app. left. find_rule.
  - eexists s0, _, _. split; [exact s0_ok|]. split; [intros; split; reflexivity|].
    vm_compute. intros (X & _). discriminate X.
Qed.
Print Assumptions C33_memory_grow_refuted.

(** A case of the positive theorems: [local 0 * 8], with a global read in it,
    becomes a shift with an [unfold]ed constant, a use of a new global and
    inserted dead code. *)
Definition ex_0 : term := TBin (OI W32 Mul) (TLocalGet 0) (TI W32 8).
Definition ex_1 : term := TContainer (TDrop (TRand W64)) (TBin (OI W32 Shl) (TLocalGet 0) (TUnfold W32 (TI W32 3))).
Example C33_case :
  wt [PI W32] [PF F64] ex_0 (PI W32) /\ trap_free ex_0 = true /\
  may_replace [PI W32] [PF F64] (without unsound_names (get_rules false 1)) ex_0 ex_1 /\
  state_ok [PI W32] [PF F64] (mkState [] [VI W32 (2^32 - 1)] (fun _ => VF F64 (S754_zero true)) 1 10) /\
  preserves [PF F64] ex_0 ex_1 (mkState [] [VI W32 (2^32 - 1)] (fun _ => VF F64 (S754_zero true)) 1 10) /\
  exec [ILocalGet 0; IConst (VI W32 8); IBin (OI W32 Mul)]
    (mkState [] [VI W32 (2^32 - 1)] (fun _ => VF F64 (S754_zero true)) 1 10) =
  Ran (mkState [VI W32 (2^32 - 8)] [VI W32 (2^32 - 1)] (fun _ => VF F64 (S754_zero true)) 1 10).
Proof.
  assert (W : wt [PI W32] [PF F64] ex_0 (PI W32)).
  { apply (wt_bin _ _ (OI W32 Mul)); [apply wt_local; reflexivity|apply wt_i]. }
  assert (M : may_replace [PI W32] [PF F64] (without unsound_names (get_rules false 1)) ex_0 ex_1).
  { unfold may_replace.
    set (rs := without unsound_names (get_rules false 1)). set (sh := TBin (OI W32 Shl) (TLocalGet 0) (TI W32 3)).
    set (H := holds [PI W32] [PF F64] rs ex_0).
    assert (H (Same ex_0 sh)) as A1.
    { refine (h_rule _ _ rs ex_0 (mkRule "i32.mul-by-8-rev" (i2 W32 Mul vx (TI W32 8)) (i2 W32 Shl vx (TI W32 3)) [])
        (ops3 (TLocalGet 0) vx vx) _ (h_start _ _ _ _) _ _ _); [find_rule|intros v p []|intros v []|intros v []]. }
    assert (H (Rep (TI W32 3))) as A2 by (eapply h_child; [eapply h_rep; exact A1|apply ch_bin2]).
    assert (H (Same (TI W32 3) (TUnfold W32 (TI W32 3)))) as A3.
    { refine (h_rule _ _ rs ex_0 (mkRule "i32.unfold" vx (TUnfold W32 vx) [CConst 0; CType 0 (PI W32)])
        (ops3 (TI W32 3) vx vx) _ A2 _ _ _); [find_rule| | |].
      - intros v p [X|[X|[]]]; inversion X; subst. eapply h_ty; [apply h_refl; exact A2|reflexivity].
      - intros v [X|[X|[]]]; inversion X; subst. exact Logic.I.
      - intros v [X|[X|[]]]; discriminate X. }
    assert (H (Same sh (TBin (OI W32 Shl) (TLocalGet 0) (TUnfold W32 (TI W32 3))))) as A4.
    { apply h_bin; [eapply h_rep; exact A1| |exact A3]. apply h_refl. eapply h_child; [eapply h_rep; exact A1|apply ch_bin1]. }
    eapply h_trans; [exact A1|]. eapply h_trans; [exact A4|].
    refine (h_rule _ _ rs ex_0 (mkRule "container-drop-i64.rand-x" vx (TContainer (TDrop (TRand W64)) vx) [])
        (ops3 (TBin (OI W32 Shl) (TLocalGet 0) (TUnfold W32 (TI W32 3))) vx vx) _ (h_rep _ _ _ _ _ _ A4) _ _ _);
      [find_rule|intros v p []|intros v []|intros v []]. }
  assert (S : state_ok [PI W32] [PF F64] (mkState [] [VI W32 (2^32 - 1)] (fun _ => VF F64 (S754_zero true)) 1 10)).
  { split; [repeat constructor; cbn; lia|]. intros [|[|n]] p H; inversion H; subst. split; reflexivity. }
  split; [exact W|]. split; [reflexivity|]. split; [exact M|]. split; [exact S|]. split.
  - exact (C33_preserved_partial false 1 _ _ _ _ W eq_refl _ M _ S).
  - reflexivity.
Qed.
