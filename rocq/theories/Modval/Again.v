(** The same module once more: its types are found, and the list of types does not change. *)
From Verif.Base Require Import Prelude.
From Verif.Reader Require Import Model.
From Verif.Types Require Import RefModel CodecModel EntityModel CanonModel CanonLemmas CanonTop.
From Verif.Instr Require Import ImmModel Ops BodyModel.
From Verif.Sections Require Import SegModel.
From Verif.Validator Require Import State Checks Visit Api Body Module.
From Verif.Modval Require Import Model.

(** * What a section leaves of the list of types *)
Definition ens {A} (P : A -> Prop) (x : outcome A) : Prop := forall a, x = Done a -> P a.
Lemma ens_bind {A B} (Q : A -> Prop) (P : B -> Prop) (x : outcome A) f : ens Q x -> (forall a, Q a -> ens P (f a)) -> ens P (obind x f).
Proof. intros H K b E. destruct x as [a| |]; cbn in E; try discriminate. exact (K a (H a eq_refl) b E). Qed.
Lemma ens_any {A} (x : outcome A) : ens (fun _ => True) x. Proof. intros a _. exact I. Qed.
Lemma ens_done {A} (P : A -> Prop) a : P a -> ens P (Done a). Proof. intros H b E. injection E as <-. exact H. Qed.
Lemma ens_rejected {A} (P : A -> Prop) e : ens P (Rejected e). Proof. intros b E. discriminate. Qed.
Lemma ens_panicked {A} (P : A -> Prop) : ens P Panicked. Proof. intros b E. discriminate. Qed.
Lemma ens_each {A S} (P : S -> Prop) (f : S -> A -> outcome S) l : (forall s a, P s -> ens P (f s a)) -> forall s, P s -> ens P (each f s l).
Proof. intros H. induction l as [|a l IH]; intros s Hs; cbn [each]; [apply ens_done; exact Hs|]. eapply ens_bind; [apply H; exact Hs|exact IH]. Qed.

Section Keep.
Variable F : feature -> bool.
Variable G : m_feature -> bool.
Variable ft : features.
Variable pos : Z.
Variable s : store.
Definition kept (st : mstate) : Prop := ms_store st = s.
Ltac step := cbv beta zeta; lazymatch goal with
  | |- ens _ (Rejected _) => apply ens_rejected
  | |- ens _ (fail _ _) => apply ens_rejected
  | |- ens _ Panicked => apply ens_panicked
  | |- ens _ (Done _) => apply ens_done; unfold kept in *; cbn [ms_store with_mod with_imported with_exports with_size with_code add_reference fst snd]; assumption
  | |- ens _ (obind ?x ?f) =>
    lazymatch type of x with
    | outcome mstate => eapply (ens_bind kept); [|intros ? ?]
    | _ => eapply ens_bind; [apply ens_any|intros ? _]
    end
  | |- ens _ (match ?x with _ => _ end) => destruct x
  end.
Ltac go := repeat step.
Lemma k_before o x : kept (fst x) -> ens (fun x => kept (fst x)) (const_before F G pos o x).
Proof.
  intros H. destruct o; cbn [const_before]; try (apply ens_rejected); try (apply ens_done; exact H);
    try (eapply ens_bind; [apply ens_any|intros ? _; apply ens_done; exact H]).
  apply ens_done. unfold insert_ref. destruct (ms_frozen (fst x)); exact H.
Qed.
Lemma k_loop fuel : forall r v x, kept (fst x) -> ens (fun x => kept (fst x)) (const_loop F G pos fuel r v x).
Proof.
  induction fuel as [|n IH]; intros r v x H; cbn [const_loop]; (destruct (eof r); [apply ens_done; exact H|]); [apply ens_rejected|].
  eapply ens_bind; [apply ens_any|]. intros [o r'] _. eapply ens_bind; [apply k_before; exact H|]. intros x' H'. cbv beta in H'. eapply ens_bind; [apply ens_any|]. intros v' _. apply IH. exact H'.
Qed.
Lemma k_const st b t : kept st -> ens kept (check_const F G ft pos st b t).
Proof. intros H. unfold check_const. eapply ens_bind; [apply k_loop; exact H|]. intros [st' m] H'. cbn [fst] in H'. destruct m; [apply ens_panicked|apply ens_done; exact H']. Qed.
Lemma k_import st e : kept st -> ens kept (add_import F G pos st e). Proof. intros H. unfold add_import. cbv zeta. destruct e; go. Qed.
Lemma k_imports st i : kept st -> ens kept (add_imports F G ft pos st i).
Proof. intros H. unfold add_imports. go. apply ens_each; [|exact H]. intros; apply k_import; assumption. Qed.
Lemma k_function st i : kept st -> ens kept (add_function pos st i). Proof. intros H. unfold add_function. go. Qed.
Lemma k_memory st i : kept st -> ens kept (add_memory F G pos st i). Proof. intros H. unfold add_memory. go. Qed.
Lemma k_tag st i : kept st -> ens kept (add_tag F pos st i). Proof. intros H. unfold add_tag. go. Qed.
Lemma k_table st d : kept st -> ens kept (add_table F G ft pos st d).
Proof. intros H. unfold add_table. go. apply k_const; exact H. Qed.
Lemma k_global st d : kept st -> ens kept (add_global F G ft pos st d).
Proof. intros H. unfold add_global. eapply ens_bind; [apply ens_any|intros ? _; cbv beta]. eapply (ens_bind kept); [apply k_const; exact H|intros; cbv beta]. go. Qed.
Lemma k_entity st k i : kept st -> ens (fun y => kept (fst (fst y))) (export_entity pos st k i).
Proof. intros H. unfold export_entity. destruct k; go. Qed.
Lemma k_export st x : kept st -> ens kept (add_export G pos st x).
Proof. intros H. unfold add_export. eapply ens_bind; [apply ens_any|intros ? _; cbv beta]. eapply ens_bind; [apply k_entity; exact H|]. intros [[st' n] b] H'. cbn [fst] in H'. go. Qed.
Lemma k_start st f : kept st -> ens kept (start pos st f). Proof. intros H. unfold start. go. Qed.
Lemma k_elem_func st f : kept st -> ens kept (elem_func pos st f). Proof. intros H. unfold elem_func. go. Qed.
Lemma k_element st e : kept st -> ens kept (add_element F G ft pos st e).
Proof.
  intros H. unfold add_element. cbv zeta. eapply ens_bind; [apply ens_any|intros ? _; cbv beta]. eapply (ens_bind kept); [|intros st1 H1; eapply (ens_bind kept); [|intros; cbv beta; go]].
  - destruct (pe_kind e); go; apply k_const; exact H.
  - destruct (pe_items e); go; apply ens_each; try assumption; intros; [apply k_elem_func|apply k_const]; assumption.
Qed.
Lemma k_data st d : kept st -> ens kept (add_data F G ft pos st d). Proof. intros H. unfold add_data. go. apply k_const; exact H. Qed.
Lemma k_entry st b : kept st -> ens (fun y => kept (fst y)) (code_entry pos st b). Proof. intros H. unfold code_entry. go. Qed.
Lemma k_entries l : forall st, kept st -> ens (fun y => kept (fst y)) (code_entries pos st l).
Proof.
  induction l as [|b l IH]; intros st H; cbn [code_entries]; [apply ens_done; exact H|]. eapply ens_bind; [apply k_entry; exact H|]. intros [st' t] H'. cbn [fst] in H'.
  eapply ens_bind; [apply IH; exact H'|]. intros [st2 t2] H2. apply ens_done. exact H2.
Qed.
Lemma k_counted {A} st len max (f : mstate -> A -> outcome mstate) l : (forall st a, kept st -> ens kept (f st a)) -> kept st -> ens kept (counted pos st len max f l).
Proof. intros Hf H. unfold counted. go. apply ens_each; assumption. Qed.
Definition is_types (d : sec) : bool := match d with STypes _ => true | _ => false end.
Lemma k_section x d : is_types d = false -> kept (fst x) -> ens (fun y => kept (fst y)) (section F G ft pos x d).
Proof.
  intros Hd H. assert (KP : forall o : outcome mstate, ens kept o -> ens (fun y => kept (fst y)) (obind o (fun st => Done (st, snd x)))).
  { intros o Ho. eapply ens_bind; [exact Ho|]. intros st Hs. apply ens_done. exact Hs. }
  destruct d; try discriminate; cbn [section]; try (apply KP).
  1-4: apply k_counted; [|exact H].
  5: eapply ens_bind; [apply ens_any|intros ? _; cbv beta]; apply KP; apply k_counted; [|exact H].
  6-7: apply k_counted; [|exact H].
  9: apply k_counted; [|exact H].
  all: intros.
  - apply k_imports; assumption.
  - apply k_function; assumption.
  - apply k_table; assumption.
  - apply k_memory; assumption.
  - apply k_tag; assumption.
  - apply k_global; assumption.
  - apply k_export; assumption.
  - apply k_start; assumption.
  - apply k_element; assumption.
  - go.
  - eapply ens_bind; [apply ens_any|intros ? _; cbv beta]. eapply ens_bind; [apply k_entries; exact H|]. intros [st fs] H'. apply ens_done. exact H'.
  - eapply ens_bind; [apply ens_any|intros ? _; cbv beta]. apply ens_each; [|exact H]. intros; apply k_data; assumption.
Qed.
Lemma k_sections l : Forall (fun d => is_types d = false) l -> forall x, kept (fst x) -> ens (fun y => kept (fst y)) (each (section F G ft pos) x l).
Proof. induction l as [|d l IH]; intros HF x H; cbn [each]; [apply ens_done; exact H|]. inversion HF; subst. eapply ens_bind; [apply k_section; assumption|]. intros y Hy. apply IH; assumption. Qed.
End Keep.

(** * The type section once more *)
(** [s'] is [s] with more groups. *)
Definition grown (s s' : store) : Prop := (exists C, st_canon s' = st_canon s ++ C) /\ (exists R, st_ranges s' = st_ranges s ++ R).
Lemma grown_refl s : grown s s. Proof. split; exists []; rewrite app_nil_r; reflexivity. Qed.
Lemma grown_trans a b c : grown a b -> grown b c -> grown a c.
Proof. intros [[C1 E1] [R1 G1]] [[C2 E2] [R2 G2]]. split; [exists (C1 ++ C2); rewrite E2, E1, app_assoc; reflexivity|exists (R1 ++ R2); rewrite G2, G1, app_assoc; reflexivity]. Qed.
Lemma check_subtype_same s i s' : check_subtype s i = CanonModel.Done s' -> st_canon s' = st_canon s /\ st_ranges s' = st_ranges s.
Proof.
  unfold check_subtype. intros H. repeat (apply obind_done in H; destruct H as (? & _ & H)). injection H as <-. split; reflexivity.
Qed.
(** With the ids of a group there is nothing to check. *)
Lemma add_ids_same n : forall i b s ids s' ids', add_ids n i b s ids = CanonModel.Done (s', ids') ->
  st_canon s' = st_canon s /\ st_ranges s' = st_ranges s /\ forall S, add_ids n i false S ids = CanonModel.Done (S, ids').
Proof.
  induction n as [|n IH]; intros i b s ids s' ids' H; cbn [add_ids] in *; [injection H as <- <-; auto|].
  destruct b.
  - apply obind_done in H. destruct H as (s1 & E1 & H). apply obind_done in H. destruct H as (u & _ & H). destruct (check_subtype_same _ _ _ E1) as [A B]. destruct (IH _ _ _ _ _ _ H) as (C & D & K).
    rewrite <- A, <- B. auto.
  - exact (IH _ _ _ _ _ _ H).
Qed.
Lemma add_group_again s ids g s1 ids1 : add_group s ids g = CanonModel.Done (s1, ids1) ->
  grown s s1 /\ forall S, grown s1 S -> zlen (st_ranges S) < 2 ^ 32 -> add_group S ids g = CanonModel.Done (S, ids1).
Proof.
  unfold add_group. destruct (_ <? zlen g); [discriminate|]. intros H. apply obind_done in H. destruct H as (c & Ec & H). apply obind_done in H. destruct H as ([[s0 new] gid] & Ei & H).
  apply obind_done in H. destruct H as (range & Er & H). destruct (add_ids_same _ _ _ _ _ _ _ H) as (Ac & Ar & Ka).
  assert (X : grown s s0 /\ find_group c (st_canon s0) = Some gid).
  { unfold intern in Ei. destruct (zlen (st_ranges s) <? 2 ^ 32); [|discriminate]. destruct (find_group c (st_canon s)) as [id|] eqn:Ef.
    - injection Ei as <- <- <-. split; [apply grown_refl|exact Ef].
    - destruct (zlen (st_types s) <? 2 ^ 32); [|discriminate]. apply obind_done in Ei. destruct Ei as (ts & _ & Ei). destruct (_ <? 2 ^ 32); [|discriminate]. injection Ei as <- <- <-.
      split; [split; eexists; reflexivity|]. cbn [st_canon]. rewrite find_app, Ef. cbn [find_group]. destruct (group_dec c c); [reflexivity|congruence]. }
  destruct X as [Gr Fd]. split.
  - destruct Gr as [[C EC] [R ER]]. split; [exists C; congruence|exists R; congruence].
  - intros S [[C EC] [R ER]] L. rewrite Ec. cbn [CanonModel.obind]. unfold intern. destruct (Z.ltb_spec (zlen (st_ranges S)) (2 ^ 32)); [|lia].
    assert (E1 : find_group c (st_canon S) = Some gid) by (rewrite EC, Ac, find_app, Fd; reflexivity). rewrite E1. cbn [CanonModel.obind].
    assert (E2 : nthz (st_ranges S) gid = Some range).
    { rewrite ER, Ar. unfold unwrap in Er. destruct (nthz (st_ranges s0) gid) as [r|] eqn:En; [|discriminate]. injection Er as ->. rewrite nthz_app_l; [exact En|]. apply nthz_some in En. lia. }
    rewrite E2. cbn [unwrap CanonModel.obind]. apply Ka.
Qed.
Section Again.
Variable F : feature -> bool.
Variable G : m_feature -> bool.
Variable ft : features.
Variable pos : Z.
Lemma types_again l : forall st st', each (add_types pos) st l = Done st' ->
  grown (ms_store st) (ms_store st') /\ forall S, grown (ms_store st') S -> zlen (st_ranges S) < 2 ^ 32 -> each (add_types pos) (with_store st S) l = Done (with_store st' S).
Proof.
  induction l as [|r l IH]; intros st st' H; cbn [each] in *; [injection H as <-; split; [apply grown_refl|intros; reflexivity]|].
  destruct (add_types pos st r) as [st1| |] eqn:E1; cbn [obind] in H; try discriminate. destruct (IH _ _ H) as [G1 K1].
  unfold add_types in E1. unfold assert_mut in E1. destruct (ms_frozen st) eqn:Ef; [discriminate|]. cbn [obind] in E1. destruct (g_group r) as [g|] eqn:Eg; cbn [must obind] in E1; [|discriminate].
  destruct (add_group (ms_store st) (md_types (ms_mod st)) g) as [[s1 ids1]| | |] eqn:Ea; cbn [canon of_canon obind] in E1; try discriminate. injection E1 as <-.
  destruct (add_group_again _ _ _ _ _ Ea) as [G0 K0]. cbn [ms_store with_mod with_store] in G1. split; [eapply grown_trans; eassumption|].
  intros S HS L. unfold add_types at 1, assert_mut. cbn [ms_frozen with_store]. rewrite Ef. cbn [obind]. rewrite Eg. cbn [must obind ms_store ms_mod with_store].
  rewrite (K0 S (grown_trans _ _ _ G1 HS) L). cbn [canon of_canon obind]. exact (K1 S HS L).
Qed.
Lemma module_again s types rest st fs : Forall (fun d => is_types d = false) rest ->
  each (section F G ft pos) (new_mstate s, []) (STypes types :: rest) = Done (st, fs) -> zlen (st_ranges (ms_store st)) < 2 ^ 32 ->
  each (section F G ft pos) (new_mstate (ms_store st), []) (STypes types :: rest) = Done (st, fs).
Proof.
  intros HR H L. cbn [each section fst snd] in *. unfold counted in *. cbn [new_mstate ms_mod] in *.
  destruct (check_max pos _ _ _ _) as [u| |]; cbn [obind] in *; try discriminate. cbn [assert_mut ms_frozen new_mstate obind] in *. change (assert_mut (new_mstate s)) with (Done tt) in H. change (assert_mut (new_mstate (ms_store st))) with (Done tt). cbn [obind] in *.
  destruct (each (add_types pos) (new_mstate s) types) as [st1| |] eqn:E1; cbn [obind] in H; try discriminate. destruct (types_again _ _ _ E1) as [_ K].
  pose proof (k_sections F G ft pos (ms_store st1) rest HR (st1, []) eq_refl _ H) as E. unfold kept in E. cbn [fst] in E. rewrite E in *.
  pose proof (K (ms_store st1) (grown_refl _) L) as E2. change (with_store (new_mstate s) (ms_store st1)) with (new_mstate (ms_store st1)) in E2. rewrite E2. cbn [obind].
  replace (with_store st1 (ms_store st1)) with st1 by (destruct st1; reflexivity). exact H.
Qed.
End Again.
