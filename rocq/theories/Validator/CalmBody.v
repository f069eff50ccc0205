(** Validation of a body does not panic. *)
From Verif.Base Require Import Prelude.
From Verif.Reader Require Import Model Spec Mono.
From Verif.Locals Require Import Model Proofs.
From Verif.Codec Require Import Kit.
From Verif.Types Require Import RefModel RefProofs CodecModel CanonModel CodecSpec CodecProofs CodecTop.
From Verif.Instr Require Import ImmModel ImmSpec ImmProofs Ops Imms Den InstrProofs BodyModel HonestInstr.
From Verif.Instr Require Visit.
From Verif.Validator Require Import State Checks Visit Api Body TypeFunc.
From Verif.Validator Require Undo Readable.
From Verif.Validator Require Import Calm CalmOps CalmControl.

(** * What is read *)
Lemma ref_read r : ref_ok r -> of_ref (d_ref r) = Some (mkR (er_null r) (of_heap (d_heap (er_heap r)))).
Proof.
  intros H. destruct (ref_ok_u32 r H) as [U _]. unfold of_ref. destruct (ref_new_faithful _ _ _ U (d_ref_new r H)) as (A & B & _). rewrite A, B. reflexivity.
Qed.
Lemma val_read v : val_ok v -> of_val (d_val v) <> None.
Proof. destruct v; cbn; try discriminate. intros H. rewrite ref_read by exact H. discriminate. Qed.
Lemma heap_modular h : modular (of_heap (d_heap h)). Proof. destruct h; cbn; eauto. Qed.
Lemma ref_reads_ok r : ref_ok r -> ref_reads (d_ref r). Proof. intros H. eexists. split; [apply ref_read, H|]. apply heap_modular. Qed.
Lemma block_read b : block_ok b -> block_reads (d_block b). Proof. destruct b; cbn; auto. apply val_read. Qed.
Lemma returned ft cur o : returns ft cur o -> in_place cur o /\ reads_op o.
Proof.
  intros (i & _ & Hi & Hf & [-> | (x & y & -> & _)]); [|split; exact I]. unfold instr_ok in Hi.
  destruct i; try (split; exact I).
  all: cbn [imms imms_ok imm_ok frame_ok den in_place reads_op d_try pt_ty] in *.
  all: repeat match goal with H : _ /\ _ |- _ => destruct H end.
  all: split; first [exact I|assumption|apply block_read; assumption|apply val_read; assumption|split; apply ref_reads_ok; assumption|apply heap_modular|idtac].
Qed.

Section Body.
Variable R : resources.
Variable F : feature -> bool.
Hypothesis HR : sane R.
Notation C := (calm_state R).
(** * The operators *)
Lemma loop_calm : forall fuel r s, good r -> C s -> ops_loop R F fuel r s <> Panicked.
Proof.
  induction fuel as [|n IH]; intros r s Hg Hs; cbn [ops_loop]; destruct (eof r); try discriminate.
  destruct (Verif.Instr.Visit.visit_operator (current_frame s) r) as [[o r1]|e] eqn:Er; cbn [of_read obind]; [|discriminate].
  assert (Hg1 : good r1) by (eapply honest_good; [apply (honest_operator (current_frame s))|exact Er|exact Hg]).
  unfold current_frame in Er. destruct (vs_control s) as [|fr c] eqn:Ec; [discriminate|].
  destruct Hg as [B P]. destruct (y_instr (r_feat r) (fr_kind fr) r o r1 eq_refl B Er) as (Hret & _). destruct (returned _ _ _ Hret) as [Hp Hr].
  assert (Hat : e_at (mkEnv R F (original_position r)) <> 0) by (cbn; lia).
  assert (HK : Kc (mkEnv R F (original_position r)) (fr :: c) s) by (split; [split; [exact Hs|rewrite Ec; discriminate]|exact Ec]).
  pose proof (t_visit (mkEnv R F (original_position r)) HR Hat fr c o Hp Hr s HK) as H.
  destruct (op (mkEnv R F (original_position r)) o s) as [[] s1|e s1|]; cbn [of_visit obind]; [|discriminate|destruct H]. apply IH; assumption.
Qed.
(** * The locals *)
Lemma define_calm E n t s : e_res E = R -> in_u 32 n -> C s -> vs_control s <> [] ->
  match define_locals E n t s with VOk _ s' => C s' /\ vs_control s' <> [] | VErr _ _ => True | VPanic => False end.
Proof.
  intros HE Hn Hs Hc. unfold define_locals, vbind. subst R. pose proof (calm_check_value E HR t s (conj Hs Hc)) as H.
  destruct (check_value_type E t s) as [v s1|e s1|]; [|exact I|exact H]. destruct H as [[H Hc1] _]. destruct (n =? 0); [split; assumption|].
  destruct H as [H1 H2 H3 (L & S1 & S2)]. pose proof (stands_define _ L n v S1 ltac:(unfold U32MAX, in_u in *; lia)) as D. cbv zeta in D.
  destruct (define (vs_locals s1) n v) as [[|] l] eqn:Ed; [|exact I]. cbn [fst snd] in D. split; [|exact Hc1]. constructor; cbn; auto.
  assert (D' : stands l (L ++ repeat v (Z.to_nat n))) by (destruct (_ <=? _); destruct D; [assumption|discriminate]).
  eexists. split; [exact D'|]. cbn. rewrite !app_length, !repeat_length. lia.
Qed.
Lemma locals_calm : forall n r s, good r -> C s -> vs_control s <> [] ->
  match locals_loop R F n r s with Done (r', s') => good r' /\ C s' | Rejected _ => True | Panicked => False end.
Proof.
  induction n as [|n IH]; intros r s Hg Hs Hc; cbn [locals_loop]; [split; assumption|].
  destruct (read_var_u32 r) as [[c r1]|] eqn:E1; cbn [of_read obind]; [|exact I].
  assert (G1 : good r1) by (eapply honest_good; [apply honest_read_var_u32|exact E1|exact Hg]).
  destruct (y_u32 (eq (r_feat r)) r c r1 eq_refl (proj1 Hg) E1) as (Hu & _).
  destruct (read_val r1) as [[t r2]|] eqn:E2; cbn [of_read obind]; [|exact I].
  assert (G2 : good r2) by (eapply honest_good; [apply honest_val|exact E2|exact G1]).
  destruct (y_val (eq (r_feat r1)) r1 t r2 eq_refl (proj1 G1) E2) as ((v & Hv & ->) & _).
  pose proof (val_read v Hv) as Hvr. destruct (of_val (d_val v)) as [w|]; [|congruence].
  pose proof (define_calm (mkEnv R F (original_position r)) c w s eq_refl Hu Hs Hc) as D.
  destruct (define_locals (mkEnv R F (original_position r)) c w s) as [[] s1|e s1|]; cbn [of_visit obind]; [|exact I|exact D]. destruct D. apply IH; assumption.
Qed.
Lemma params_stand (ps : list val) : forall l L, stands l L -> exists L', stands (fold_left (fun l p => snd (define l 1 p)) ps l) L' /\ (List.length L' <= List.length L + List.length ps)%nat.
Proof.
  induction ps as [|p ps IH]; intros l L H; cbn [fold_left]; [exists L; split; [exact H|cbn; lia]|].
  pose proof (stands_define l L 1 p H ltac:(unfold U32MAX; lia)) as D. cbv zeta in D. destruct (_ <=? _); destruct D as [_ D]; destruct (IH _ _ D) as (L' & A & B); exists L'; split; auto.
  - rewrite app_length, repeat_length in B. cbn [List.length]. lia.
  - cbn [List.length]. lia.
Qed.
Lemma new_calm E ty s : e_res E = R -> new_func E ty = Ok s -> C s /\ vs_control s <> [].
Proof.
  intros HE. unfold new_func. destruct (r_sub_type_at _ _) as [t|]; [|discriminate]. destruct (c_inner _) as [ps rs| | |]; try discriminate. intros H. injection H as <-. split; [|discriminate].
  destruct (params_stand ps locals_empty [] stands_empty) as (L & A & B). constructor; cbn.
  - repeat split; lia.
  - reflexivity.
  - constructor; [exact I|constructor].
  - exists L. split; [exact A|]. cbn [List.length Nat.add] in B. cbn. rewrite repeat_length. unfold zlen. rewrite Nat2Z.id. exact B.
Qed.
(** * The body *)
Theorem validate_calm ft start ty off bytes : 0 <= off -> bytes_ok bytes -> validate R F ft start ty off bytes <> Panicked.
Proof.
  intros Ho Hb. unfold validate. destruct (new_func (mkEnv R F start) ty) as [s|e] eqn:N; cbn [of_read obind]; [|discriminate]. destruct (new_calm (mkEnv R F start) _ _ eq_refl N) as [Hs Hc].
  destruct (read_var_u32 (new_reader ft bytes off)) as [[n r0]|e] eqn:En; cbn [of_read obind]; [|discriminate]. pose proof (start_good ft bytes off n r0 Ho Hb En) as Hg.
  pose proof (locals_calm (Z.to_nat n) r0 s Hg Hs Hc) as L. destruct (locals_loop R F (Z.to_nat n) r0 s) as [[r1 s1]|e|]; cbn [obind]; [|discriminate|destruct L]. destruct L as [G1 C1].
  pose proof (loop_calm (List.length (r_rem r1)) r1 s1 G1 C1) as O. destruct (ops_loop R F (List.length (r_rem r1)) r1 s1) as [[r2 s2]|e|]; cbn [obind]; [|discriminate|congruence].
  unfold finish. destruct (current_frame s2); [discriminate|]. destruct (eof r2); discriminate.
Qed.
End Body.
