(** Control: no operator that the reader gives in its place panics. *)
From Verif.Base Require Import Prelude.
From Verif.Locals Require Import Model Proofs.
From Verif.Types Require Import RefModel CodecModel CanonModel.
From Verif.Instr Require Import ImmModel Ops.
From Verif.Validator Require Import State Checks Visit Api Undo Generic Calm CalmOps.

Section Env.
Variable E : env.
Hypothesis HR : sane (e_res E).
Hypothesis Hat : e_at E <> 0.
Notation R := (e_res E).
Notation K := (K E). Notation calm := (calm E). Notation ok := (calm any).
Notation C := (calm_state R).

Definition tri {A} (P : vst -> Prop) (m : V A) (Q : A -> vst -> Prop) : Prop :=
  forall s, P s -> match m s with VOk a s' => Q a s' | VErr _ _ => True | VPanic => False end.
Lemma tri_bind {A B} P (M : A -> vst -> Prop) (Q : B -> vst -> Prop) m k : tri P m M -> (forall a, tri (M a) (k a) Q) -> tri P (vbind m k) Q.
Proof. intros Hm Hk s Hs. unfold vbind. specialize (Hm s Hs). destruct (m s) as [a s1| |]; auto. exact (Hk a s1 Hm). Qed.
Lemma tri_weaken {A} P (Q Q' : A -> vst -> Prop) m : tri P m Q -> (forall a s, Q a s -> Q' a s) -> tri P m Q'.
Proof. intros H W s Hs. specialize (H s Hs). destruct (m s); auto. Qed.
Lemma tri_pre {A} (P P' : vst -> Prop) (Q : A -> vst -> Prop) m : tri P m Q -> (forall s, P' s -> P s) -> tri P' m Q.
Proof. intros H W s Hs. exact (H s (W s Hs)). Qed.
Lemma tri_calm {A} (Q : A -> Prop) m : calm Q m -> tri K m (fun a s => K s /\ Q a). Proof. intros H s Hs. exact (H s Hs). Qed.
Lemma tri_and {A} P (Q' : Prop) (Q : A -> vst -> Prop) m : (Q' -> tri P m Q) -> tri (fun s => P s /\ Q') m Q.
Proof. intros H s [Hs Hq]. exact (H Hq s Hs). Qed.
Lemma tri_ret {A} (P : vst -> Prop) (a : A) (Q : A -> vst -> Prop) : (forall s, P s -> Q a s) -> tri P (vret a) Q. Proof. intros H s Hs. exact (H s Hs). Qed.
Definition settled : unit -> vst -> Prop := fun _ s => C s.

(** What changes operands only keeps the control stack. *)
Definition Kc (c : list frame) (s : vst) : Prop := K s /\ vs_control s = c.
Lemma keep {A} (Q : A -> Prop) (m : V A) c : opnd m -> calm Q m -> tri (Kc c) m (fun a s => Kc c s /\ Q a).
Proof.
  intros O H s [Hs Hc]. specialize (O s). specialize (H s Hs). destruct (m s) as [a s'| |]; auto. destruct H as [H1 H2]. repeat split; auto; try apply H1.
  rewrite (or_control _ _ O). exact Hc.
Qed.
(** Without a frame. *)
Definition Cc (c : list frame) (s : vst) : Prop := C s /\ vs_control s = c.
Lemma K_of c s : Cc c s -> c <> [] -> Kc c s. Proof. intros [H <-] N. repeat split; auto; apply H. Qed.
Lemma quiet_sub i c : tri (Cc c) (func_type_at E i) (fun f s => Cc c s /\ known_fn E f).
Proof.
  intros s Hs. unfold func_type_at, sub_type_at, vbind, vsome. destruct (r_sub_type_at R i) as [t|] eqn:Et; [|exact I]. cbn. destruct (sn_index _ HR _ _ Et) as (H & _).
  destruct (c_inner (s_comp t)) as [ps rs| | |]; try exact I. unfold check_shared, vcheck, vbind, vget. destruct (negb _); [|exact I]. cbn. split; [exact Hs|]. destruct (H _ _ eq_refl). split; assumption.
Qed.
Lemma quiet_results b c : known_block R b -> tri (Cc c) (results E b) (fun ts s => Cc c s /\ Forall (known_val R) ts).
Proof.
  intros Hb. destruct b as [|v|i]; cbn [results]; [apply tri_ret; auto|apply tri_ret; intros s Hs; split; [exact Hs|constructor; [exact Hb|constructor]]|].
  eapply tri_bind; [apply quiet_sub|]. intros f. cbv beta. apply tri_and. intros [_ H]. apply tri_ret. auto.
Qed.
Lemma quiet_params b c : tri (Cc c) (params E b) (fun ts s => Cc c s).
Proof.
  destruct b as [|v|i]; cbn [params]; [apply tri_ret; auto|apply tri_ret; auto|]. eapply tri_bind; [apply quiet_sub|]. intros f. cbv beta. apply tri_and. intros _. apply tri_ret. auto.
Qed.
Lemma quiet_push t c : tri (Cc c) (push_operand t) (fun _ s => Cc c s).
Proof.
  intros s [Hs Hc]. pose proof (opnd_push t s) as O. unfold push_operand, push_maybe in *. split; [eapply rel_calm; eauto|]. rewrite (or_control _ _ O). exact Hc.
Qed.
Lemma quiet_pushes l c : tri (Cc c) (pushes l) (fun _ s => Cc c s).
Proof. unfold pushes. induction l as [|t l IH]; [apply tri_ret; auto|]. cbn [vall]. eapply tri_bind; [apply quiet_push|]. intros ?. exact IH. Qed.
(** ** Frames *)
Lemma t_push_bare k b c : known_block R b -> (c <> [] \/ k = FBlock) ->
  tri (Cc c) (push_bare_ctrl k b) (fun _ s => exists fr, fr_kind fr = k /\ fr_block fr = b /\ Kc (fr :: c) s).
Proof.
  intros Hb Hc s [[H1 H2 H3 H4] <-]. unfold push_bare_ctrl.
  exists (mkFrame k b (List.length (vs_operands s)) false (inits_height (vs_inits s))). split; [reflexivity|]. split; [reflexivity|]. split; [split|]; [|cbn; discriminate|reflexivity].
  constructor; cbn.
  - split; [lia|]. split; [lia|]. exact H1.
  - destruct (vs_control s); [destruct Hc; [congruence|assumption]|exact H2].
  - constructor; assumption.
  - exact H4.
Qed.
Lemma t_push k b c : known_block R b -> (c <> [] \/ k = FBlock) ->
  tri (Cc c) (push_ctrl E k b) (fun _ s => exists fr, fr_kind fr = k /\ fr_block fr = b /\ Kc (fr :: c) s).
Proof.
  intros Hb Hc. unfold push_ctrl. eapply tri_bind; [apply t_push_bare; assumption|]. intros ? s (fr & A & B & Hs).
  assert (X : tri (Kc (fr :: c)) (let! ps := params E b in pushes ps) (fun _ s => Kc (fr :: c) s)).
  { eapply tri_bind; [apply keep; [apply opnd_params|apply calm_params, HR]|]. intros ps. cbv beta. apply tri_and. intros _.
    eapply tri_weaken; [apply keep; [apply opnd_pushes|apply calm_pushes]|]. intros ? t [H _]. exact H. }
  specialize (X s Hs). destruct ((let! ps := params E b in pushes ps) s); auto. exists fr. auto.
Qed.
Lemma t_drop fr c : tri (fun s => Kc (fr :: c) s /\ List.length (vs_operands s) = fr_height fr) drop_ctrl
  (fun fr' s => fr' = fr /\ known_block R (fr_block fr) /\ (fr_kind fr <> FBlock -> c <> []) /\ Cc c s).
Proof.
  intros s [[[[H1 H2 H3 H4] _] Hc] Hl]. unfold drop_ctrl. rewrite Hc in *. cbn in H1. destruct H1 as (A & B & D). destruct (inits_pop_some _ _ B) as (is & und & Hp). rewrite Hp.
  split; [reflexivity|]. inversion H3; subst. split; [assumption|]. split; [intros N ->; apply N; exact H2|]. split; [|reflexivity].
  destruct (inits_pop_height _ _ _ _ Hp) as [Hh _]. constructor; cbn.
  - rewrite Hh, Hl. exact D.
  - destruct c; [exact I|exact H2].
  - assumption.
  - destruct H4 as (F & S1 & S2). exists F. split; [exact S1|]. unfold inits_pop in Hp. destruct (_ <? _)%nat; [discriminate|]. injection Hp as <- <-. cbn. rewrite clear_length. exact S2.
Qed.
Lemma t_pop fr c : tri (Kc (fr :: c)) (pop_ctrl E) (fun fr' s => fr' = fr /\ known_block R (fr_block fr) /\ (fr_kind fr <> FBlock -> c <> []) /\ Cc c s).
Proof.
  intros s Hs. unfold pop_ctrl, vbind at 1, vget at 1. rewrite (proj2 Hs).
  assert (Hb : known_block R (fr_block fr)) by (destruct Hs as [[[_ _ H _] _] Hc]; rewrite Hc in H; inversion H; assumption).
  revert s Hs. eapply tri_bind; [apply keep; [apply opnd_results|apply calm_results; [exact HR|exact Hb]]|]. intros ts. cbv beta. apply tri_and. intros _.
  eapply tri_bind; [apply keep; [apply opnd_pops|apply calm_pops]|]. intros ?. cbv beta. apply tri_and. intros _.
  intros s Hs. unfold vbind at 1, vget at 1. unfold vbind, vcheck. destruct (Nat.eqb_spec (List.length (vs_operands s)) (fr_height fr)) as [Hl|]; [|exact I].
  cbn. exact (t_drop fr c s (conj Hs Hl)).
Qed.

(** ** Unreachable code and locals *)
Lemma t_unreachable : ok unreachable.
Proof.
  intros s [[H1 H2 H3 H4] N]. unfold unreachable. destruct (vs_control s) as [|fr c] eqn:Ec; [congruence|]. cbn in H1. destruct H1 as (A & B & D).
  assert (G : forall s1, vs_operands s1 = vs_operands s -> vs_locals s1 = vs_locals s -> vs_inits s1 = vs_inits s ->
    let s2 := with_control s1 (mkFrame (fr_kind fr) (fr_block fr) (fr_height fr) true (fr_init_height fr) :: c) in
    match (if (List.length (vs_operands s2) <? fr_height fr)%nat then VPanic else
      let n := (List.length (vs_operands s2) - fr_height fr)%nat in
      let operands := firstn n (vs_operands s2) in
      VOk tt (log_map (fun l => fold_left (fun l op => log_operand (Some op) l) operands l) (with_operands s2 (skipn n (vs_operands s2)))))
    with VOk a s' => K s' /\ any a | VErr _ _ => True | VPanic => False end).
  { intros s1 X Y1 Y2 s2. change (vs_operands s2) with (vs_operands s1). rewrite X. destruct (Nat.ltb_spec (List.length (vs_operands s)) (fr_height fr)) as [L|L]; [lia|].
    cbv zeta. split; [|exact I]. split; [|cbn; discriminate].
    constructor; unfold tracked; cbn; rewrite ?Y1, ?Y2.
    - rewrite skipn_length. split; [lia|]. split; [exact B|]. replace (List.length (vs_operands s) - (List.length (vs_operands s) - fr_height fr))%nat with (fr_height fr) by lia. exact D.
    - destruct c; exact H2.
    - inversion H3; subst. constructor; assumption.
    - exact H4. }
  apply G; destruct (fr_unreachable fr); reflexivity.
Qed.
Lemma t_set i t : tri (fun s => K s /\ Model.get (vs_locals s) i = Some t) (local_set_init i) (fun _ s => K s).
Proof.
  intros s [[[H1 H2 H3 H4] N] Hg]. unfold local_set_init, set_init. pose proof (tracked_get _ _ _ H4 Hg) as T.
  assert (X : exists u, is_uninit (vs_inits s) i = Some u).
  { unfold is_uninit. destruct (i <? _); [eauto|]. apply nth_error_Some in T. destruct (nth_error _ _); [eauto|congruence]. }
  destruct X as [[|] ->].
  - split; [|exact N]. constructor; cbn; auto.
    + eapply stacked_le; [exact H1|lia|]. unfold inits_height. cbn. rewrite app_length. lia.
    + destruct H4 as (F & S1 & S2). exists F. split; [exact S1|]. cbn. rewrite set_bit_length. exact S2.
  - split; [|exact N]. constructor; cbn; auto.
Qed.
Lemma t_local_set i : ok (visit_local_set E i).
Proof.
  intros s Hs. unfold visit_local_set, local. unfold vbind at 1. unfold vbind at 1, vget at 1. destruct (Model.get (vs_locals s) i) as [t|] eqn:Eg; [|exact I]. cbn [vsome]. unfold vret at 1.
  pose proof (opnd_pop E t s) as O. pose proof (calm_pop E t s Hs) as P. unfold vbind. destruct (pop E t s) as [a s1| |]; auto. destruct P as [P _].
  pose proof (t_set i t s1) as T. cbv beta in T. rewrite (or_locals _ _ O) in T. specialize (T (conj P Eg)). destruct (local_set_init i s1); auto. split; [exact T|exact I].
Qed.
Lemma t_local_tee i : ok (visit_local_tee E i).
Proof.
  intros s Hs. unfold visit_local_tee, local. unfold vbind at 1. unfold vbind at 1, vget at 1. destruct (Model.get (vs_locals s) i) as [t|] eqn:Eg; [|exact I]. cbn [vsome]. unfold vret at 1.
  pose proof (opnd_pop E t s) as O. pose proof (calm_pop E t s Hs) as P. unfold vbind at 1. destruct (pop E t s) as [a s1| |]; auto. destruct P as [P _].
  pose proof (t_set i t s1) as T. cbv beta in T. rewrite (or_locals _ _ O) in T. specialize (T (conj P Eg)). unfold vbind. destruct (local_set_init i s1) as [a' s2| |]; auto. exact (calm_push E t s2 T).
Qed.

(** ** Operators that keep the frames *)
Ltac seq l := eapply calm_bind; [apply l|]; intros ? ?; cbv beta in * |-.
Lemma t_labels d : calm (fun _ => True) (let! j := jump E d in label_types E (fst j) (snd j)).
Proof. eapply calm_bind; [apply calm_jump|]. intros j Hj. eapply calm_ok. apply calm_label_types; [exact HR|exact Hj]. Qed.
Lemma t_br d : ok (visit_br E d).
Proof.
  unfold visit_br. eapply calm_bind; [apply calm_jump|]. intros j Hj. eapply calm_bind; [apply calm_label_types; [exact HR|exact Hj]|]. intros ts _. seq calm_pops. apply t_unreachable.
Qed.
Lemma t_br_table t : ok (visit_br_table E t).
Proof.
  unfold visit_br_table. seq calm_pop. eapply calm_bind; [apply calm_jump|]. intros j Hj. eapply calm_bind; [apply calm_label_types; [exact HR|exact Hj]|]. intros ts _.
  destruct (targets t) as [l e]. eapply calm_bind.
  { apply calm_all. intros d _. eapply calm_bind; [apply calm_jump|]. intros j' Hj'. eapply calm_bind; [apply calm_label_types; [exact HR|exact Hj']|]. intros ts' _. seq calm_check. apply o_stack. }
  intros _ _. seq calm_lift. seq calm_pops. apply t_unreachable.
Qed.
Lemma t_check_return : ok (check_return E).
Proof. unfold check_return. eapply calm_bind; [apply calm_outermost, HR|]. intros l _. seq calm_pops. apply t_unreachable. Qed.
Lemma t_return_call f : ok (check_return_call_ty E f).
Proof. unfold check_return_call_ty. eapply calm_bind; [apply o_same_results, HR|]. intros _ _. seq calm_pops. seq calm_pushes. apply t_check_return. Qed.
Lemma t_throw i : ok (visit_throw E i).
Proof. unfold visit_throw. eapply calm_bind; [apply o_tag|]. intros f _. seq calm_pops. apply t_unreachable. Qed.
Lemma t_throw_ref : ok (visit_throw_ref E). Proof. unfold visit_throw_ref. seq calm_pop. apply t_unreachable. Qed.
Lemma t_rethrow d : ok (visit_rethrow E d).
Proof. unfold visit_rethrow. eapply calm_bind; [apply calm_jump|]. intros j _. destruct (snd j); first [apply t_unreachable|apply calm_fail]. Qed.

(** ** Operators that open or close a frame *)
Lemma K_now s : K s -> Cc (vs_control s) s /\ vs_control s <> []. Proof. intros [H N]. split; [split; [exact H|reflexivity]|exact N]. Qed.
Lemma settle c s : Kc c s -> C s. Proof. intros [[H _] _]. exact H. Qed.
Lemma t_open k b : known_block R b -> tri K (push_ctrl E k b) settled.
Proof.
  intros Hb s Hs. destruct (K_now s Hs) as [Hc N]. pose proof (t_push k b _ Hb (or_introl N) s Hc) as H. destruct (push_ctrl E k b s); auto.
  destruct H as (fr & _ & _ & H). eapply settle, H.
Qed.
Lemma t_block_kind k b : block_reads b -> tri K (visit_block_kind E k b) settled.
Proof.
  intros Hb. unfold visit_block_kind. eapply tri_bind; [apply tri_calm, calm_block_type; [exact HR|exact Hb]|]. intros b'. cbv beta. apply tri_and. intros Hb'.
  eapply tri_bind; [apply tri_calm, calm_params, HR|]. intros ps. cbv beta. apply tri_and. intros _.
  eapply tri_bind; [apply tri_calm, calm_pops|]. intros ?. cbv beta. apply tri_and. intros _. apply t_open, Hb'.
Qed.
Lemma t_if b : block_reads b -> tri K (visit_if E b) settled.
Proof.
  intros Hb. unfold visit_if. eapply tri_bind; [apply tri_calm, calm_block_type; [exact HR|exact Hb]|]. intros b'. cbv beta. apply tri_and. intros Hb'.
  eapply tri_bind; [apply tri_calm, calm_pop|]. intros ?. cbv beta. apply tri_and. intros _.
  eapply tri_bind; [apply tri_calm, calm_params, HR|]. intros ps. cbv beta. apply tri_and. intros _.
  eapply tri_bind; [apply tri_calm, calm_pops|]. intros ?. cbv beta. apply tri_and. intros _. apply t_open, Hb'.
Qed.
Lemma t_try_table t : block_reads (pt_ty t) -> tri K (visit_try_table E t) settled.
Proof.
  intros Hb. unfold visit_try_table. eapply tri_bind; [apply tri_calm, calm_block_type; [exact HR|exact Hb]|]. intros b'. cbv beta. apply tri_and. intros Hb'.
  eapply tri_bind; [apply tri_calm, calm_params, HR|]. intros ps. cbv beta. apply tri_and. intros _.
  eapply tri_bind; [apply tri_calm, calm_pops|]. intros ?. cbv beta. apply tri_and. intros _.
  eapply tri_bind; [apply tri_calm, calm_all; intros; apply o_catch, HR|]. intros ?. cbv beta. apply tri_and. intros _. apply t_open, Hb'.
Qed.
(** The frame on top is [fr]. *)
Lemma tri_top {A} (m : V A) (Q : A -> vst -> Prop) k : (forall fr c, fr_kind fr = k -> tri (Kc (fr :: c)) m Q) ->
  tri (fun s => K s /\ exists fr c, vs_control s = fr :: c /\ fr_kind fr = k) m Q.
Proof. intros H s (Hs & fr & c & Hc & Hk). exact (H fr c Hk s (conj Hs Hc)). Qed.
Lemma tri_eq {A} fr (m : frame -> V A) (P P' : Prop) S (Q : A -> vst -> Prop) : (P -> P' -> tri S (m fr) Q) -> forall fr', tri (fun s => fr' = fr /\ P /\ P' /\ S s) (m fr') Q.
Proof. intros H fr' s (-> & H1 & H2 & Hs). exact (H H1 H2 s Hs). Qed.
Lemma t_else fr c : fr_kind fr <> FBlock -> tri (Kc (fr :: c)) (visit_else E) settled.
Proof.
  intros Hk. unfold visit_else. eapply tri_bind; [apply t_pop|]. cbv beta. apply (tri_eq fr (fun fr => push_ctrl E FElse (fr_block fr))). intros Hb Hn.
  eapply tri_weaken; [apply t_push; [exact Hb|left; exact (Hn Hk)]|]. intros ? s (f & _ & _ & H). eapply settle, H.
Qed.
Lemma t_catch i fr c : fr_kind fr <> FBlock -> tri (Kc (fr :: c)) (visit_catch E i) settled.
Proof.
  intros Hk. unfold visit_catch. eapply tri_bind; [apply t_pop|]. cbv beta. apply (tri_eq fr (fun fr => push_bare_ctrl FLegacyCatch (fr_block fr) ;; let! f := exception_tag_at E i in pushes (fn_params f))).
  intros Hb Hn. eapply tri_bind; [apply t_push_bare; [exact Hb|left; exact (Hn Hk)]|]. intros ?. cbv beta. intros s (f & _ & _ & [Hs _]).
  revert s Hs. change (tri K (let! f := exception_tag_at E i in pushes (fn_params f)) settled).
  eapply tri_bind; [apply tri_calm, o_tag|]. intros g. cbv beta. apply tri_and. intros _. eapply tri_weaken; [apply tri_calm, calm_pushes|]. intros ? s [[H _] _]. exact H.
Qed.
Lemma t_catch_all fr c : fr_kind fr <> FBlock -> tri (Kc (fr :: c)) (visit_catch_all E) settled.
Proof.
  intros Hk. unfold visit_catch_all. eapply tri_bind; [apply t_pop|]. cbv beta. apply (tri_eq fr (fun fr => push_bare_ctrl FLegacyCatchAll (fr_block fr))). intros Hb Hn.
  eapply tri_weaken; [apply t_push_bare; [exact Hb|left; exact (Hn Hk)]|]. intros ? s (f & _ & _ & H). eapply settle, H.
Qed.
Lemma t_delegate d fr c : fr_kind fr <> FBlock -> tri (Kc (fr :: c)) (visit_delegate E d) settled.
Proof.
  intros Hk. unfold visit_delegate. eapply tri_bind; [apply t_pop|]. cbv beta.
  apply (tri_eq fr (fun fr => jump E d ;; let! ts := results E (fr_block fr) in pushes ts)). intros Hb Hn.
  apply (tri_pre K). 2:{ intros s [Hs Hc]. split; [exact Hs|]. rewrite Hc. exact (Hn Hk). }
  eapply tri_bind; [apply tri_calm, calm_jump|]. intros j. cbv beta. apply tri_and. intros _.
  eapply tri_bind; [apply tri_calm, calm_results; [exact HR|exact Hb]|]. intros ts. cbv beta. apply tri_and. intros _.
  eapply tri_weaken; [apply tri_calm, calm_pushes|]. intros ? s [[H _] _]. exact H.
Qed.
Lemma t_end_tail fr c : known_block R (fr_block fr) ->
  tri (Cc c) (let! ts := results E (fr_block fr) in pushes ts ;; let! c := vget vs_control in match c with [] => if e_at E =? 0 then vpanic else vret tt | _ => vret tt end) settled.
Proof.
  intros Hb. eapply tri_bind; [apply quiet_results, Hb|]. intros ts. cbv beta. apply tri_and. intros _. eapply tri_bind; [apply quiet_pushes|]. intros ?. cbv beta.
  intros s [Hs _]. unfold vbind, vget. destruct (Z.eqb_spec (e_at E) 0); [congruence|]. destruct (vs_control s); exact Hs.
Qed.
Lemma t_end fr c : tri (Kc (fr :: c)) (visit_end E) settled.
Proof.
  unfold visit_end. eapply tri_bind; [apply t_pop|]. cbv beta.
  apply (tri_eq fr (fun fr => let! fr := (if is_if (fr_kind fr) then push_ctrl E FElse (fr_block fr) ;; pop_ctrl E else vret fr) in
    let! ts := results E (fr_block fr) in pushes ts ;; let! c := vget vs_control in match c with [] => if e_at E =? 0 then vpanic else vret tt | _ => vret tt end)).
  intros Hb Hn. destruct (is_if (fr_kind fr)) eqn:Hi.
  - assert (Hc : c <> []) by (apply Hn; destruct (fr_kind fr); discriminate). 
    eapply (tri_bind _ (fun fr' s => exists f, fr' = f /\ known_block R (fr_block f) /\ True /\ Cc c s)).
    + eapply tri_bind; [apply t_push; [exact Hb|left; exact Hc]|]. intros ?. cbv beta. intros s (f & _ & _ & Hs).
      pose proof (t_pop f c s Hs) as H. destruct (pop_ctrl E s) as [fr' s'| |]; auto. destruct H as (-> & H1 & _ & H2). exists f. auto.
    + intros fr' s (f & -> & H1 & _ & H2). exact (t_end_tail f c H1 s H2).
  - eapply (tri_bind _ (fun fr' s => fr' = fr /\ Cc c s)); [apply tri_ret; auto|]. intros fr' s [-> Hs]. exact (t_end_tail fr c Hb s Hs).
Qed.

(** * Every operator *)
(** The frame the reader looks at. *)
Definition in_place (k : frame_kind) (o : operator) : Prop :=
  match o with
  | Op_Else => k = FIf
  | Op_Catch _ | Op_CatchAll => k = FLegacyTry \/ k = FLegacyCatch
  | Op_Delegate _ => k = FLegacyTry
  | _ => True
  end.
Lemma of_calm (m : V unit) : ok m -> tri K m settled. Proof. intros H. eapply tri_weaken; [apply tri_calm, H|]. intros ? s [[X _] _]. exact X. Qed.
Theorem t_op fr c o : in_place (fr_kind fr) o -> reads_op o -> tri (Kc (fr :: c)) (visit_op E o) settled.
Proof.
  intros Hp Hr. destruct (plain_op o) eqn:Hpl; [eapply tri_pre; [apply of_calm, o_plain; assumption|intros s [H _]; exact H]|].
  assert (W : forall m, tri K m settled -> tri (Kc (fr :: c)) m settled) by (intros m H; eapply tri_pre; [exact H|intros s [X _]; exact X]).
  destruct o; try discriminate Hpl; clear Hpl; cbn [visit_op reads_op in_place] in *.
  all: lazymatch goal with
    | |- tri _ visit_unreachable _ => apply W, of_calm, t_unreachable
    | |- tri _ (visit_block _ _) _ => apply W, t_block_kind, Hr
    | |- tri _ (visit_loop _ _) _ => apply W, t_block_kind, Hr
    | |- tri _ (visit_try _ _) _ => apply W, t_block_kind, Hr
    | |- tri _ (visit_if _ _) _ => apply W, t_if, Hr
    | |- tri _ (visit_try_table _ _) _ => apply W, t_try_table, Hr
    | |- tri _ (visit_else _) _ => apply t_else; rewrite Hp; discriminate
    | |- tri _ (visit_catch _ _) _ => apply t_catch; destruct Hp as [-> | ->]; discriminate
    | |- tri _ (visit_catch_all _) _ => apply t_catch_all; destruct Hp as [-> | ->]; discriminate
    | |- tri _ (visit_delegate _ _) _ => apply t_delegate; rewrite Hp; discriminate
    | |- tri _ (visit_end _) _ => apply t_end
    | |- tri _ (visit_br _ _) _ => apply W, of_calm, t_br
    | |- tri _ (visit_br_table _ _) _ => apply W, of_calm, t_br_table
    | |- tri _ (visit_return _) _ => apply W, of_calm, t_check_return
    | |- tri _ (visit_throw _ _) _ => apply W, of_calm, t_throw
    | |- tri _ (visit_throw_ref _) _ => apply W, of_calm, t_throw_ref
    | |- tri _ (visit_rethrow _ _) _ => apply W, of_calm, t_rethrow
    | |- tri _ (visit_local_set _ _) _ => apply W, of_calm, t_local_set
    | |- tri _ (visit_local_tee _ _) _ => apply W, of_calm, t_local_tee
    | |- tri _ (visit_return_call _ _) _ => apply W, of_calm; eapply calm_bind; [apply o_type_of, HR|]; intros f _; apply t_return_call
    | |- tri _ (visit_return_call_indirect _ _ _) _ => apply W, of_calm; eapply calm_bind; [apply o_indirect, HR|]; intros f _; apply t_return_call
    | |- tri _ (visit_return_call_ref _ _) _ => apply W, of_calm; eapply calm_bind; [apply o_call_ref, HR|]; intros f _; apply t_return_call
    end.
Qed.
Theorem t_visit fr c o : in_place (fr_kind fr) o -> reads_op o -> tri (Kc (fr :: c)) (op E o) settled.
Proof.
  intros Hp Hr. unfold op, visit. apply (tri_bind _ (fun _ => Kc (fr :: c))); [|intros ?; apply t_op; assumption].
  destruct (gate o) as [[f msg]|]; [|apply tri_ret; auto]. intros s Hs. unfold require, vcheck. destruct (e_feat E f); [exact Hs|exact I].
Qed.
End Env.
