(** Typing derivations brought to a canonical form: one step per instruction, with frame and subsumption at each. *)
From Verif.Base Require Import Prelude.
From Verif.Types Require Import RefModel CodecModel CanonModel.
From Verif.Instr Require Import ImmModel Ops.
From Verif.Validator Require Import State Checks Sig TypeSpec.

Lemma Forall2_len {A B} (P : A -> B -> Prop) l m : Forall2 P l m -> List.length l = List.length m.
Proof. induction 1; cbn; congruence. Qed.
Lemma val_eqb_eq a b : val_eqb a b = true <-> a = b.
Proof. unfold val_eqb. destruct (vty_dec _ a b); split; congruence. Qed.

Section Order.
Variable C : ctx.
Hypothesis HM : res_ok (cx_mod C).
Lemma sub_refl a : sub C a a = true.
Proof.
  unfold sub. destruct (is_ref a) eqn:Ha.
  - destruct a; try discriminate. rewrite (ro_ref _ HM), (ro_refl _ HM). destruct (rt_null r); reflexivity.
  - rewrite (ro_num _ HM) by (rewrite Ha; reflexivity). apply val_eqb_eq. reflexivity.
Qed.
Lemma sub_cases a b : sub C a b = true -> (exists x y, a = VRef x /\ b = VRef y /\ implb (rt_null x) (rt_null y) = true /\ ro_hsub _ HM (rt_heap x) (rt_heap y) = true)
  \/ (a = b /\ is_ref a = false).
Proof.
  unfold sub. destruct (is_ref a && is_ref b) eqn:E; intros H.
  - apply andb_prop in E. destruct a as [| | | | |x], b as [| | | | |y]; destruct E as [E1 E2]; try discriminate.
    rewrite (ro_ref _ HM) in H. apply andb_prop in H. left. eauto 8.
  - rewrite (ro_num _ HM) in H by exact E. apply val_eqb_eq in H. subst b. right. split; [reflexivity|]. destruct (is_ref a); [discriminate|reflexivity].
Qed.
Lemma sub_trans a b c : sub C a b = true -> sub C b c = true -> sub C a c = true.
Proof.
  intros H K. destruct (sub_cases _ _ H) as [(x & y & -> & -> & N & S)|[-> N]]; [|exact K].
  destruct (sub_cases _ _ K) as [(x1 & y1 & X1 & -> & N1 & S1)|[X1 N1]]; [|rewrite <- X1; exact H].
  injection X1 as <-. unfold sub. rewrite (ro_ref _ HM), (ro_trans _ HM _ _ _ S S1).
  destruct (rt_null x), (rt_null y), (rt_null y1); try discriminate; reflexivity.
Qed.
Lemma sub_ref r b : sub C (VRef r) b = true -> exists x, b = VRef x.
Proof. intros H. destruct (sub_cases _ _ H) as [(x & y & _ & -> & _)|[<- N]]; eauto. Qed.
Lemma sub_to_ref a r : sub C a (VRef r) = true -> exists x, a = VRef x.
Proof. intros H. destruct (sub_cases _ _ H) as [(x & y & -> & _)|[-> N]]; eauto. Qed.

Lemma aht_refl a : aht_is_subtype a a = true. Proof. destruct a; reflexivity. Qed.
Lemma aht_trans a b c : aht_is_subtype a b = true -> aht_is_subtype b c = true -> aht_is_subtype a c = true.
Proof. destruct a, b; intros H; try discriminate H; destruct c; intros K; try discriminate K; reflexivity. Qed.
Lemma sub_abs n s s' a b : sub C (VRef (abs n s a)) (VRef (abs n s' b)) = Bool.eqb s s' && aht_is_subtype a b.
Proof. unfold sub. rewrite (ro_ref _ HM). cbn [abs rt_null rt_heap]. rewrite (ro_abs _ HM). destruct n; reflexivity. Qed.
Lemma dsub_refl t : dsub C t t.
Proof. destruct t; cbn; auto using sub_refl, aht_refl. Qed.
Lemma dsub_trans a b c : dsub C a b -> dsub C b c -> dsub C a c.
Proof.
  destruct a as [| |a|a], b as [| |b|b], c as [| |c|c]; cbn [dsub]; try tauto; try solve [destruct b; tauto].
  - intros _ [sh H]. destruct (sub_ref _ _ H) as [x ->]. exact I.
  - destruct b as [| | | | |b]; try tauto. intros _ H. destruct (sub_ref _ _ H) as [x ->]. exact I.
  - apply aht_trans.
  - intros H [sh K]. exists sh. eapply sub_trans; [|exact K]. rewrite sub_abs, H. destruct sh; reflexivity.
  - intros [sh H] K. exists sh. eapply sub_trans; eassumption.
  - apply sub_trans.
Qed.
Lemma dsubs_refl l : dsubs C l l.
Proof. induction l; constructor; auto using dsub_refl. Qed.
Lemma dsubs_trans a b c : dsubs C a b -> dsubs C b c -> dsubs C a c.
Proof.
  intros H. revert c. induction H as [|x y l m H _ IH]; intros c K; inversion K; subst; constructor; [eapply dsub_trans; eassumption|apply IH; assumption].
Qed.
Lemma dsubs_app a b c d : dsubs C a b -> dsubs C c d -> dsubs C (a ++ c) (b ++ d).
Proof. apply Forall2_app. Qed.
End Order.

(** * Steps *)
Definition sets (i : instr) : list Z := match i with IOp (Op_LocalSet i) | IOp (Op_LocalTee i) => [i] | _ => [] end.
Definition sets_es (es : list instr) : list Z := flat_map sets es.
Lemma i_ok_sets C X i ts xs us : i_ok C X i ts xs us -> xs = sets i.
Proof.
  intros H; destruct H; try reflexivity; cbn [sets].
  - destruct o; try reflexivity; discriminate.
  - destruct o; try reflexivity; contradiction.
  - destruct H; subst; reflexivity.
Qed.
Definition one (C : ctx) (X : list Z) (i : instr) (ts us : list dt) : Prop :=
  exists fs a xs b, i_ok C X i a xs b /\ dsubs C ts (fs ++ a) /\ dsubs C (fs ++ b) us.
(** The locals set are added in front of those before. *)
Fixpoint steps (C : ctx) (X : list Z) (es : list instr) (ts us : list dt) : Prop :=
  match es with
  | [] => dsubs C ts us
  | i :: es => exists vs, one C X i ts vs /\ steps C (sets i ++ X) es vs us
  end.

Section Steps.
Variable C : ctx.
Hypothesis HM : res_ok (cx_mod C).
Lemma one_sub X i ts us ts' us' : one C X i ts us -> dsubs C ts' ts -> dsubs C us us' -> one C X i ts' us'.
Proof. intros (f & a & xs & b & H & T & U) H1 H2. exists f, a, xs, b. eauto using dsubs_trans. Qed.
Lemma one_frame X i ts us g : one C X i ts us -> one C X i (g ++ ts) (g ++ us).
Proof.
  intros (f & a & xs & b & H & T & U). exists (g ++ f), a, xs, b. rewrite <- !app_assoc. pose proof (dsubs_refl C HM g).
  split; [exact H|split; apply dsubs_app; assumption].
Qed.
Lemma steps_sub es : forall X ts us ts' us', steps C X es ts us -> dsubs C ts' ts -> dsubs C us us' -> steps C X es ts' us'.
Proof.
  induction es as [|i es IH]; intros X ts us ts' us' H T U; [eapply dsubs_trans, dsubs_trans; eassumption|].
  destruct H as (vs & H & K). exists vs. pose proof (dsubs_refl C HM vs). split; [eapply one_sub; eauto|eapply IH; eauto].
Qed.
Lemma steps_frame es : forall X ts us g, steps C X es ts us -> steps C X es (g ++ ts) (g ++ us).
Proof.
  induction es as [|i es IH]; intros X ts us g H; [apply dsubs_app; [apply dsubs_refl, HM|exact H]|].
  destruct H as (vs & H & K). exists (g ++ vs). eauto using one_frame.
Qed.
Lemma steps_set es : forall X Y ts us, X = Y -> steps C X es ts us -> steps C Y es ts us.
Proof. intros. subst. assumption. Qed.
(** Only membership matters, but the order is kept up to this. *)
Definition same_set (X Y : list Z) : Prop := forall i : Z, In i X <-> In i Y.
End Steps.

(** More locals set type no less; only which locals are set matters. *)
Lemma i_ok_more : forall C X i ts xs us, i_ok C X i ts xs us -> forall Y, incl X Y -> i_ok C Y i ts xs us
with es_ok_more : forall C X es ts xs us, es_ok C X es ts xs us -> forall Y, incl X Y -> es_ok C Y es ts xs us.
Proof.
  - intros C X i ts xs us H Y I; destruct H; try solve [econstructor; eauto].
  - intros C X es ts xs us H Y I; destruct H; try solve [econstructor; eauto].
    eapply es_app; [eauto|]. eapply es_ok_more; [eassumption|]. intros z Hz. apply in_app_iff in Hz. apply in_app_iff. firstorder.
Qed.
Lemma one_more C X Y i ts us : one C X i ts us -> incl X Y -> one C Y i ts us.
Proof. intros (f & a & xs & b & H & T & U) I. exists f, a, xs, b. eauto using i_ok_more. Qed.
Lemma steps_more C es : forall X Y ts us, steps C X es ts us -> incl X Y -> steps C Y es ts us.
Proof.
  induction es as [|i es IH]; intros X Y ts us H I; [exact H|].
  destruct H as (vs & H & K). exists vs. split; [eapply one_more; eauto|]. eapply IH; [exact K|].
  intros z Hz. apply in_app_iff in Hz. apply in_app_iff. firstorder.
Qed.

Section Canonical.
Variable C : ctx.
Hypothesis HM : res_ok (cx_mod C).
Lemma steps_app es es' : forall X ts us vs, steps C X es ts us -> steps C (sets_es es ++ X) es' us vs -> steps C X (es ++ es') ts vs.
Proof.
  induction es as [|i es IH]; intros X ts us vs H K; cbn [app].
  - eapply steps_sub; [exact HM|exact K|exact H|apply dsubs_refl, HM].
  - destruct H as (ws & H & H'). exists ws. split; [exact H|]. eapply IH; [exact H'|].
    eapply steps_more; [exact K|]. unfold sets_es. cbn [flat_map]. intros z Hz. rewrite !in_app_iff in *. tauto.
Qed.
Lemma ok_steps X es ts xs us : es_ok C X es ts xs us -> xs = sets_es es /\ steps C X es ts us.
Proof.
  assert (G : forall C0 X es ts xs us, es_ok C0 X es ts xs us -> C0 = C -> xs = sets_es es /\ steps C X es ts us).
  2: intros H; exact (G _ _ _ _ _ _ H eq_refl).
  clear X es ts xs us. intros C0 X es ts xs us H. induction H; intros ->.
  - split; [reflexivity|constructor].
  - pose proof (i_ok_sets _ _ _ _ _ _ H) as ->. split; [cbn; rewrite app_nil_r; reflexivity|].
    exists us. split; [exists [], ts, (sets i), us; split; [exact H|split; apply dsubs_refl, HM]|apply dsubs_refl, HM].
  - destruct (IHes_ok1 eq_refl) as [-> H1], (IHes_ok2 eq_refl) as [-> H2].
    split; [unfold sets_es; rewrite flat_map_app; reflexivity|]. eapply steps_app; eassumption.
  - destruct (IHes_ok eq_refl) as [-> H1]. split; [reflexivity|apply steps_frame; assumption].
  - destruct (IHes_ok eq_refl) as [-> H2]. split; [reflexivity|eapply steps_sub; eassumption].
Qed.
Lemma steps_ok es : forall X ts us, steps C X es ts us -> es_ok C X es ts (sets_es es) us.
Proof.
  induction es as [|i es IH]; intros X ts us H.
  - cbn [steps] in H. pose proof (es_frame C X [] us [] [] [] (es_nil C X)) as K. rewrite app_nil_r in K. cbn [sets_es flat_map].
    eapply es_sub; [exact K|exact H|apply dsubs_refl, HM].
  - destruct H as (vs & (f & a & xs & b & Hi & T & U) & H).
    change (i :: es) with ([i] ++ es). unfold sets_es. rewrite flat_map_app. cbn [flat_map]. rewrite app_nil_r.
    eapply es_app; [|apply IH; exact H]. rewrite <- (i_ok_sets _ _ _ _ _ _ Hi).
    eapply es_sub; [apply es_frame, es_one; exact Hi|exact T|exact U].
Qed.
End Canonical.
