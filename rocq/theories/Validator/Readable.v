(** What the validator accepts can be read, and what was validated is what is read. *)
From Verif.Base Require Import Prelude.
From Verif.Reader Require Import Model Spec Mono.
From Verif.Types Require Import RefModel CodecModel CanonModel CodecTop.
From Verif.Instr Require Import ImmModel Ops BodyModel HonestInstr.
From Verif.Validator Require Import State Checks Visit Api Body TypeRun TypeKinds TypeFunc.

Section Readable.
Variable R : resources.
Variable F : feature -> bool.
Lemma define_control E n t s s' : Api.define_locals E n t s = VOk tt s' -> vs_control s' = vs_control s.
Proof.
  intros H. unfold Api.define_locals, vbind in H.
  assert (Ov : Undo.opnd (check_value_type E t)).
  { apply (Generic.P_check_value_type E (@Undo.opnd)); intros; eauto using @Undo.opnd_ret, @Undo.opnd_bind, @Undo.opnd_panic, @Undo.opnd_fail, @Undo.opnd_lift, @Undo.opnd_get. }
  specialize (Ov s). destruct (check_value_type E t s) as [v s1| |]; try discriminate. rewrite <- (Undo.or_control _ _ Ov).
  destruct (n =? 0); [injection H as <-; reflexivity |]. destruct (Locals.Model.define (vs_locals s1) n v) as [[] l]; [| discriminate]. injection H as <-. reflexivity.
Qed.
Lemma locals_read : forall n r s r' s', good r -> locals_loop R F n r s = Done (r', s') ->
  (exists u, read_n n skip_item r = Ok (u, r')) /\ good r' /\ vs_control s' = vs_control s.
Proof.
  induction n as [|n IH]; intros r s r' s' Hg; cbn [locals_loop read_n]; [intros E; injection E as <- <-; split; [eexists; reflexivity | auto] |].
  unfold bind at 1. unfold skip_item at 1, bind.
  destruct (read_var_u32 r) as [[c r1]|] eqn:E1; cbn [of_read obind]; [| discriminate].
  destruct (read_val r1) as [[t r2]|] eqn:E2; cbn [of_read obind]; [| discriminate]. destruct (of_val t) as [v|]; [| discriminate].
  destruct (Api.define_locals _ c v s) as [[] s1| |] eqn:D; cbn [of_visit obind]; try discriminate. intros H.
  assert (G2 : good r2) by (eapply honest_good; [apply honest_val | exact E2 | eapply honest_good; [apply honest_read_var_u32 | exact E1 | exact Hg]]).
  destruct (IH r2 s1 r' s' G2 H) as ((u & Hu) & G' & Hc). split; [| split; [exact G' |]].
  - unfold ret. rewrite Hu. eexists. reflexivity.
  - rewrite Hc. eapply define_control. exact D.
Qed.
Lemma accepted_reads ft start ty off bytes : bytes_ok bytes -> 0 <= off -> validate R F ft start ty off bytes = Done tt ->
  exists l s0 s1, body_ops ft off bytes = Ok (map snd l) /\ kinds s0 = [FBlock] /\ run R F l s0 = VOk tt s1 /\ vs_control s1 = [].
Proof.
  intros B O. unfold validate. destruct (new_func (mkEnv R F start) ty) as [s|e] eqn:N; cbn [of_read obind]; [| discriminate].
  assert (Hk : kinds s = [FBlock]).
  { unfold new_func in N. destruct (r_sub_type_at _ _); [| discriminate]. destruct (c_inner _); try discriminate. injection N as <-. reflexivity. }
  unfold body_ops, skip_locals, read_expr, bind.
  destruct (read_var_u32 (new_reader ft bytes off)) as [[n r0]|e] eqn:En; cbn [of_read obind]; [| discriminate].
  pose proof (start_good ft bytes off n r0 O B En) as Hg0.
  destruct (locals_loop R F (Z.to_nat n) r0 s) as [[r1 s1]|e|] eqn:El; cbn [obind]; try discriminate.
  destruct (locals_read _ _ _ _ _ Hg0 El) as ((u & Sk) & G1 & Hc).
  change (fun r : reader => match read_var_u32 r with Ok (_, r') => match read_val r' with Ok (_, r'0) => ret tt r'0 | Err e => Err e end | Err e => Err e end) with skip_item.
  rewrite Sk. unfold ret. assert (Hk1 : cs_list cs_new = kinds s1) by (unfold kinds in *; rewrite Hc, Hk; reflexivity).
  pose proof (loop_collect R F (List.length (r_rem r1)) r1 s1 cs_new Hk1 ltac:(intros K; discriminate K) G1) as Lc.
  destruct (ops_collect (List.length (r_rem r1)) cs_new r1) as [[[ops c'] r']|e].
  2: { destruct (ops_loop R F (List.length (r_rem r1)) r1 s1) as [x| |]; [exfalso; exact (Lc x eq_refl)|discriminate..]. }
  destruct Lc as (l & Hl & _ & Hef & _ & _ & Hloop & Hkn). rewrite Hloop.
  destruct (run R F l s1) as [[] s2| |] eqn:Er; cbn [obind]; try discriminate. specialize (Hkn s2 eq_refl).
  unfold finish. rewrite current_kinds, Hkn. destruct (cs_list c') as [|k t] eqn:Ec; [| discriminate]. cbn [hd_error]. intros _.
  exists l, s1, s2. cbn [fst snd]. unfold ops_finish. rewrite last_list, Ec. cbn [hd_error]. rewrite Hef. subst ops.
  split; [reflexivity |]. split; [rewrite <- Hk1; reflexivity |]. split; [exact Er |]. unfold kinds in Hkn. destruct (vs_control s2); [reflexivity | discriminate].
Qed.
End Readable.
