(** C36: composition graphs. *)
From Coq Require Import ZArith Lia List Bool Arith Permutation Relations.
From Verif Require Import Base.Prelude Names.Kebab Graph.Compose Graph.ComposeMaps Graph.ComposeProofs.
Import ListNotations.
Open Scope nat_scope.

(** In [g], import [i] of instance [t] is given export [oe] of instance [s]
    ([None]: the instance itself). *)
Definition feeds (g : graph) (s : nat) (oe : option nat) (t i : nat) : Prop :=
  exists m, elookup (s, t) (edges g) = Some m /\ In (i, oe) m.
Definition exists_instance (g : graph) (i : nat) : Prop := In i (map fst (instances g)).
Definition instance_of (g : graph) (i c : nat) : Prop := comp_of (instances g) i = Some c.
(** A call to disconnect names the source of the import, if it has one. *)
Definition proper_call (e : edit) (g : graph) : Prop :=
  match e with Disconnect s t i => forall s' oe, feeds g s' oe t i -> s' = s | _ => True end.
(** All calls of a history do, each in the state it is made in. *)
Fixpoint proper_history (es : list edit) (g : graph) : Prop :=
  match es with
  | [] => True
  | e :: es => proper_call e g /\ match step e g with Done g' => proper_history es g' | Failed => proper_history es g | Panicked => True end
  end.

Lemma proper_call_proper e g : proper_call e g -> proper e g.
Proof.
  destruct e; cbn; auto. intros P s' m E I. apply in_map_iff in I. destruct I as ((j & oe) & <- & I). apply (P s' oe). exists m. now split.
Qed.
Lemma history_inv es : forall g, Inv g -> proper_history es g -> exists g', run es g = Some g' /\ Inv g'.
Proof.
  induction es as [|e es IH]; intros g V; cbn [proper_history run]; [intros _; exists g; now split|].
  intros (P & R). destruct (step_inv e g V) as (NP & SI). destruct (step e g) as [g1| |] eqn:E; [|now apply IH|congruence].
  apply IH; [|exact R]. apply SI; [now apply proper_call_proper|reflexivity].
Qed.

(** No sequence of such calls panics, and the connections it leaves go between
    different existing instances, with at most one source for each import and
    indices the components have. *)
Theorem C36_consistent_partial es : proper_history es new ->
  exists g, run es new = Some g /\
    (forall s oe t i, feeds g s oe t i -> s <> t /\ exists_instance g s /\ exists_instance g t /\
       exists sc tc, made_of (instances g) (components g) s = Some sc /\ made_of (instances g) (components g) t = Some tc /\
         i < List.length (c_imports tc) /\ (forall e, oe = Some e -> e < c_exports sc)) /\
    (forall s s' oe oe' t i, feeds g s oe t i -> feeds g s' oe' t i -> s = s' /\ oe = oe').
Proof.
  intros P. destruct (history_inv es new inv_new P) as (g & R & (V & C)). exists g. split; [exact R|]. split.
  - intros s oe t i (m & E & I). destruct (g_edge _ _ _ V _ _ _ E) as (D & Is & It & _). split; [exact D|].
    split; [apply (lookup_key Nat.eq_dec), (g_node _ _ _ V); exact Is|]. split; [apply (lookup_key Nat.eq_dec), (g_node _ _ _ V); exact It|].
    destruct (c_valid g C _ _ _ _ _ E I) as (sc & tc & A1 & A2 & A3 & A4). exists sc, tc. repeat (split; [assumption|]). intros e ->. exact A4.
  - intros s s' oe oe' t i (m & E & I) (m' & E' & I').
    assert (s = s') as <-.
    { apply (g_one _ _ _ V s s' t m m' i); try assumption; apply in_map_iff; eexists; (split; [|eassumption]); reflexivity. }
    split; [reflexivity|]. rewrite E in E'. injection E' as <-. destruct (g_edge _ _ _ V _ _ _ E) as (_ & _ & _ & _ & N).
    apply (lookup_iff Nat.eq_dec) in I, I'; try exact N. congruence.
Qed.
Print Assumptions C36_consistent_partial.

(** What each call does to the connections and the instances. *)
Lemma feeds_unchanged g g' : edges g' = edges g -> forall s oe t i, feeds g' s oe t i <-> feeds g s oe t i.
Proof. intros E s oe t i. unfold feeds. now rewrite E. Qed.
Theorem C36_edits es g e g' : proper_history es new -> run es new = Some g -> step e g = Done g' ->
  match e with
  | AddComponent _ _ => forall s oe t i, feeds g' s oe t i <-> feeds g s oe t i
  | Instantiate k c => (forall s oe t i, feeds g' s oe t i <-> feeds g s oe t i) /\
      exists new, ~ exists_instance g new /\ instance_of g' new c /\ (forall j c', j <> new -> (instance_of g' j c' <-> instance_of g j c'))
  | RemoveInstance id => (forall s oe t i, feeds g' s oe t i <-> feeds g s oe t i /\ s <> id /\ t <> id) /\
      (forall j c, instance_of g' j c <-> instance_of g j c /\ j <> id)
  | RemoveComponent id => (forall s oe t i, feeds g' s oe t i <-> feeds g s oe t i /\ ~ instance_of g s id /\ ~ instance_of g t id) /\
      (forall j c, instance_of g' j c <-> instance_of g j c /\ c <> id)
  | Connect _ s0 oe0 t0 i0 => forall s oe t i, feeds g' s oe t i <-> feeds g s oe t i \/ (s, oe, t, i) = (s0, oe0, t0, i0)
  | Disconnect s0 t0 i0 => forall s oe t i, feeds g' s oe t i <-> feeds g s oe t i /\ (s, t, i) <> (s0, t0, i0)
  end.
Proof.
  intros P R S. destruct (history_inv es new inv_new P) as (g1 & R1 & Iv). rewrite R in R1. injection R1 as <-. pose proof Iv as (V & C). destruct e; cbn [step] in S.
  - apply feeds_unchanged. unfold add_component in S. destruct (lookup str_dec (c_name c) (names g)); [discriminate|]. destruct (nlookup _ (components g)); [discriminate|]. now injection S as <-.
  - unfold remove_component in S. destruct (nlookup id (components g)) as [en|] eqn:Ec.
    2:{ injection S as <-. assert (forall j, ~ instance_of g j id) as No.
        { intros j H. destruct (c_comp g C j id H) as (e & E). congruence. }
        split; [intros; split; [intros H; split; [exact H|split; apply No]|tauto]|]. intros j c. split; [|tauto]. intros H. split; [exact H|]. intros ->. exact (No j H). }
    destruct (lookup str_dec (c_name (e_component en)) (names g)); [|discriminate].
    destruct (c_inst g C id en Ec) as (Ne & Ae).
    destruct (remove_all_spec (e_instances en) (instances g) (nodes g) (edges g) V Ne) as (insts & ns & es' & R' & V' & CO & L).
    { intros i I. apply Ae in I. apply comp_lookup in I. destruct I as (x & E & _). apply (lookup_key Nat.eq_dec). eauto. }
    rewrite R' in S. injection S as <-. unfold feeds, instance_of. cbn [edges instances].
    assert (forall j, existsb (Nat.eqb j) (e_instances en) = true <-> comp_of (instances g) j = Some id) as X by (intros j; rewrite existsb_In; apply Ae).
    split.
    + intros s oe t i. rewrite L. rewrite <- !X. destruct (existsb (Nat.eqb s) (e_instances en)), (existsb (Nat.eqb t) (e_instances en)); cbn;
        (split; [intros (m & E & I); solve [discriminate E|split; [eauto|split; discriminate]]|intros (H & H1 & H2); solve [destruct H1; reflexivity|destruct H2; reflexivity|exact H]]).
    + intros j c. rewrite CO. destruct (existsb (Nat.eqb j) (e_instances en)) eqn:Xj.
      * apply X in Xj. split; [discriminate|]. intros (H & D). congruence.
      * split; [|tauto]. intros H. split; [exact H|]. intros ->. apply X in H. congruence.
  - unfold instantiate in S. destruct (nlookup id (components g)) as [en|] eqn:Ec; [|discriminate]. injection S as <-. split; [apply feeds_unchanged; reflexivity|].
    exists (next_instance g + skipped).
    assert (comp_of (instances g) (next_instance g + skipped) = None) as Fi.
    { destruct (comp_of (instances g) _) as [c'|] eqn:E; [|reflexivity]. apply (c_nexti g C) in E. lia. }
    unfold exists_instance, instance_of, comp_of in *. cbn [instances]. split; [|split].
    + intros I. apply (lookup_key Nat.eq_dec) in I. destruct I as (x & E). rewrite E in Fi. discriminate.
    + rewrite lookup_insert. destruct (Nat.eq_dec _ _); [reflexivity|congruence].
    + intros j c' D. rewrite lookup_insert. destruct (Nat.eq_dec j _); [congruence|reflexivity].
  - unfold remove_instance in S. destruct (nlookup id (instances g)) as [x|] eqn:Ex.
    2:{ injection S as <-. assert (forall j c, instance_of g j c -> j <> id) as No.
        { intros j c H ->. apply comp_lookup in H. destruct H as (x & E & _). congruence. }
        split.
        - intros s oe t i. split; [|tauto]. intros H. split; [exact H|]. destruct H as (m & E & I). destruct (g_edge _ _ _ V _ _ _ E) as (_ & Is & It & _).
          apply (g_node _ _ _ V) in Is, It. destruct Is as (xs & Es), It as (xt & Et). split; intros ->; congruence.
        - intros j c. split; [|tauto]. intros H. split; [exact H|]. exact (No j c H). }
    destruct (nlookup (i_component x) (components g)) as [en|]; [|discriminate].
    destruct (remove_one (instances g) (nodes g) (edges g) id V) as (insts & O & V' & CO); [apply (lookup_key Nat.eq_dec); eauto|].
    rewrite O in S. injection S as <-. unfold feeds, instance_of. cbn [edges instances]. split.
    + intros s oe t i. rewrite drop_lookup. destruct (Nat.eqb_spec s id) as [->|Ds]; [|destruct (Nat.eqb_spec t id) as [->|Dt]]; cbn;
        (split; [intros (m & E & I); solve [discriminate E|split; [eauto|now split]]|intros (H & H1 & H2); solve [destruct H1; reflexivity|destruct H2; reflexivity|exact H]]).
    + intros j c. rewrite CO. destruct (Nat.eqb_spec j id) as [->|D]; [|tauto]. split; [discriminate|tauto].
  - destruct (connect_inv fits source export target import g Iv) as (_ & B). destruct (B g' S) as (_ & m & E & Im & A1 & A2 & A3 & _).
    intros s oe t i. unfold feeds. split.
    + intros (m' & E' & I'). destruct (pair_dec (s, t) (source, target)) as [[= -> ->]|D].
      * rewrite E in E'. injection E' as <-. destruct (A1 _ _ I') as [[= -> ->]|(m0 & E0 & I0)]; [now right|left; eauto].
      * left. rewrite (A3 s t D) in E'. eauto.
    + intros [(m0 & E0 & I0)|[= -> -> -> ->]]; [|eauto]. destruct (pair_dec (s, t) (source, target)) as [[= -> ->]|D].
      * exists m. split; [exact E|]. exact (A2 m0 E0 _ I0).
      * exists m0. rewrite (A3 s t D). now split.
  - pose proof (disconnect_edges source target import g g' Iv S) as DE. intros s oe t i. unfold feeds. split.
    + intros (m' & E' & I'). apply DE in E'. destruct E' as (_ & m & E & ->). destruct (pair_dec (s, t) (source, target)) as [[= -> ->]|D].
      * apply nremove_keys in I'; [|apply (g_edge _ _ _ V _ _ _ E)]. destruct I' as (I' & Di). split; [eauto|]. cbn in Di. congruence.
      * split; [eauto|]. congruence.
    + intros ((m & E & I) & D). destruct (pair_dec (s, t) (source, target)) as [[= -> ->]|Dp].
      * exists (nremove import m). assert (In (i, oe) (nremove import m)) as I2.
        { apply nremove_keys; [apply (g_edge _ _ _ V _ _ _ E)|]. split; [exact I|]. cbn. congruence. }
        split; [|exact I2]. apply DE. split; [intros Z; rewrite Z in I2; destruct I2|]. exists m. split; [exact E|]. destruct (pair_dec _ _); [reflexivity|congruence].
      * exists m. split; [|exact I]. apply DE. split; [apply (g_edge _ _ _ V _ _ _ E)|]. exists m. split; [exact E|]. destruct (pair_dec (s, t) _); [congruence|reflexivity].
Qed.
Print Assumptions C36_edits.

(** The arguments of an instantiation: every import of the component once, from
    its source where it has one and imported otherwise. *)
Definition right_arguments (g : graph) (id : nat) (args : list (nat * argument)) : Prop :=
  exists c, made_of (instances g) (components g) id = Some c /\
    Permutation (map fst args) (seq 0 (List.length (c_imports c))) /\
    (forall i s oe, In (i, FromInstance s oe) args <-> feeds g s oe id i) /\
    (forall i, In (i, Imported) args <-> i < List.length (c_imports c) /\ ~ exists s oe, feeds g s oe id i).

Lemma incoming_In id s t m es : NoDup (map fst es) -> (In (s, t, m) (incoming id es) <-> t = id /\ elookup (s, t) es = Some m).
Proof. intros N. unfold incoming. rewrite filter_In. cbn. rewrite Nat.eqb_eq. rewrite (lookup_iff pair_dec _ _ _ N). tauto. Qed.

Lemma args_right g encoded id : Inv g -> exists_instance g id -> (forall s oe i, feeds g s oe id i -> In s encoded) ->
  exists args, instantiation_args g encoded id = Some args /\ right_arguments g id args.
Proof.
  intros (V & C) Iid En. unfold instantiation_args. apply (lookup_key Nat.eq_dec) in Iid. destruct Iid as (x & Ex). rewrite Ex.
  assert (comp_of (instances g) id = Some (i_component x)) as Cid by (apply comp_lookup; eauto).
  destruct (c_comp g C _ _ Cid) as (en & Ec). rewrite Ec.
  assert (made_of (instances g) (components g) id = Some (e_component en)) as Mid by (unfold made_of; now rewrite Cid, Ec).
  pose proof (g_edges _ _ _ V) as NE.
  assert (existsb (fun e : nat * nat * edge_map => fst (fst e) =? id) (incoming id (edges g)) = false) as ->.
  { apply not_true_iff_false. intros H. apply existsb_exists in H. destruct H as (((s & t) & m) & I & E). cbn in E. apply Nat.eqb_eq in E. subst s.
    apply incoming_In in I; [|exact NE]. destruct I as (-> & E). now apply (g_edge _ _ _ V) in E. }
  assert (forall inc, (forall s t m, In (s, t, m) inc -> t = id /\ elookup (s, t) (edges g) = Some m) ->
    exists args, connected_args (e_component en) g encoded inc = Some args /\
      args = flat_map (fun e => map (fun p => (fst p, FromInstance (fst (fst e)) (snd p))) (snd e)) inc) as K.
  { induction inc as [|[[s t] m] inc IH]; intros A; [exists []; split; reflexivity|].
    destruct IH as (args & E & ->); [intros; apply A; now right|]. destruct (A s t m (or_introl eq_refl)) as (-> & Em). cbn [connected_args].
    destruct (g_edge _ _ _ V _ _ _ Em) as (D & Is & It & Ne & Nm).
    assert (In s encoded) as Ise.
    { destruct m as [|[i oe] m]; [congruence|]. apply (En s oe i). eexists. split; [exact Em|now left]. }
    apply existsb_In in Ise. rewrite Ise. cbn [negb]. destruct (g_node _ _ _ V s Is) as (xs & Exs). rewrite Exs.
    assert (comp_of (instances g) s = Some (i_component xs)) as Cs by (apply comp_lookup; eauto).
    destruct (c_comp g C _ _ Cs) as (es & Ecs). rewrite Ecs.
    rewrite E. cbn [option_map flat_map fst snd].
    match goal with |- context [forallb ?f m] => assert (forallb f m = true) as -> end; [|eexists; split; reflexivity].
    apply forallb_forall. intros (i & oe) I. destruct (c_valid g C _ _ _ _ _ Em I) as (sc & tc & M1 & M2 & L1 & L2). rewrite Mid in M2. injection M2 as <-.
    unfold made_of in M1. rewrite Cs, Ecs in M1. injection M1 as <-. cbn. apply andb_true_intro. split; [now apply Nat.ltb_lt|]. destruct oe; [now apply Nat.ltb_lt|reflexivity]. }
  destruct (K (incoming id (edges g))) as (args & E & Ea); [intros s t m I; now apply incoming_In in I|]. rewrite E. cbn [option_map].
  eexists. split; [reflexivity|]. exists (e_component en). split; [exact Mid|].
  destruct (g_conn _ _ _ V id x Ex) as (Nc & Bc).
  assert (forall i s oe, In (i, FromInstance s oe) args <-> feeds g s oe id i) as AF.
  { intros i s oe. rewrite Ea, in_flat_map. split.
    - intros (((s0 & t0) & m) & I & J). apply incoming_In in I; [|exact NE]. destruct I as (-> & Em). cbn in J. apply in_map_iff in J.
      destruct J as ((i0 & o0) & [= -> -> ->] & J). exists m. now split.
    - intros (m & Em & I). exists (s, id, m). split; [apply incoming_In; [exact NE|now split]|]. cbn. apply in_map_iff. exists (i, oe). now split. }
  assert (forall i, In i (map fst args) <-> In i (i_connected x)) as AK.
  { intros i. rewrite Bc. rewrite Ea, in_map_iff. split.
    - intros ((i0 & a) & <- & I). apply in_flat_map in I. destruct I as (((s0 & t0) & m) & I & J). apply incoming_In in I; [|exact NE]. destruct I as (-> & Em).
      cbn in J. apply in_map_iff in J. destruct J as (p & [= <- <-] & J). exists s0, m. split; [exact Em|]. exact (in_map fst m p J).
    - intros (s & m & Em & I). apply in_map_iff in I. destruct I as ((i0 & oe) & <- & I). exists (i0, FromInstance s oe). split; [reflexivity|].
      rewrite <- Ea. apply AF. exists m. now split. }
  assert (NoDup (map fst args)) as NA.
  { rewrite Ea. assert (NoDup (map fst (incoming id (edges g)))) as NI by (apply filter_nodup_map; exact NE).
    assert (forall e, In e (incoming id (edges g)) -> snd (fst e) = id /\ elookup (fst e) (edges g) = Some (snd e)) as AI.
    { intros ((s & t) & m) I. apply incoming_In in I; [|exact NE]. destruct I as (-> & Em). now split. }
    clear - NI AI V. induction (incoming id (edges g)) as [|[[s t] m] inc IH]; [constructor|]. cbn [flat_map fst snd]. rewrite map_app.
    inversion NI as [|? ? N1 N2]; subst. destruct (AI _ (or_introl eq_refl)) as (T & Em). cbn in T, Em. subst t.
    destruct (g_edge _ _ _ V _ _ _ Em) as (_ & _ & _ & _ & Nm). rewrite map_map. cbn [fst].
    assert (forall l1 l2 : list nat, NoDup l1 -> NoDup l2 -> (forall z, In z l1 -> ~ In z l2) -> NoDup (l1 ++ l2)) as ND.
    { clear. induction l1 as [|a l1 IH]; intros l2 H1 H2 H; [exact H2|]. inversion H1; subst. cbn. constructor.
      - rewrite in_app_iff. intros [J|J]; [contradiction|]. apply (H a); [now left|exact J].
      - apply IH; auto. intros z Hz. apply H. now right. }
    apply ND; [exact Nm|apply IH; [exact N2|intros e I; apply AI; now right]|].
    intros i I J. apply in_map_iff in J. destruct J as ((i0 & a) & <- & J). apply in_flat_map in J. destruct J as (((s1 & t1) & m1) & I1 & J).
    destruct (AI _ (or_intror I1)) as (T & Em1). cbn in T, Em1, J. subst t1. apply in_map_iff in J. destruct J as (p & [= <- <-] & J).
    assert (s = s1) as <- by (apply (g_one _ _ _ V s s1 id m m1 (fst p)); try assumption; exact (in_map fst m1 p J)).
    apply N1. apply in_map_iff. exists (s, id, m1). now split. }
  set (n := List.length (c_imports (e_component en))).
  assert (forall i, In i (i_connected x) -> i < n) as LI.
  { intros i I. apply Bc in I. destruct I as (s & m & Em & I). apply in_map_iff in I. destruct I as ((i0 & oe) & <- & I).
    destruct (c_valid g C _ _ _ _ _ Em I) as (sc & tc & _ & M2 & L1 & _). rewrite Mid in M2. injection M2 as <-. exact L1. }
  assert (forall i, In (i, Imported) (imported_args (e_component en) x) <-> i < n /\ ~ In i (i_connected x)) as AI.
  { intros i. unfold imported_args. rewrite in_map_iff. split.
    - intros (j & [= ->] & I). apply filter_In in I. destruct I as (I & B). apply in_seq in I. apply negb_true_iff, existsb_out in B. unfold n. split; [lia|exact B].
    - intros (L & N). exists i. split; [reflexivity|]. apply filter_In. split; [apply in_seq; unfold n in L; lia|]. apply negb_true_iff. now apply existsb_out. }
  split; [|split].
  - rewrite map_app. apply NoDup_Permutation; [|apply seq_NoDup|].
    + unfold imported_args. rewrite map_map. cbn [fst]. rewrite map_id.
      assert (forall l1 l2 : list nat, NoDup l1 -> NoDup l2 -> (forall z, In z l1 -> ~ In z l2) -> NoDup (l1 ++ l2)) as ND.
      { clear. induction l1 as [|a l1 IH]; intros l2 H1 H2 H; [exact H2|]. inversion H1; subst. cbn. constructor.
        - rewrite in_app_iff. intros [J|J]; [contradiction|]. apply (H a); [now left|exact J].
        - apply IH; auto. intros z Hz. apply H. now right. }
      apply ND; [exact NA|apply NoDup_filter, seq_NoDup|]. intros i I J. apply AK in I. apply filter_In in J. destruct J as (_ & B). apply negb_true_iff, existsb_out in B. contradiction.
    + intros i. rewrite in_app_iff, in_seq, AK. unfold imported_args. rewrite map_map. cbn [fst]. rewrite map_id, filter_In, in_seq, negb_true_iff, existsb_out.
      fold n. split.
      * intros [I|((? & ?) & _)]; [apply LI in I; lia|lia].
      * intros (_ & L). destruct (in_dec Nat.eq_dec i (i_connected x)); [now left|right]. split; [lia|assumption].
  - intros i s oe. rewrite in_app_iff, AF. split; [|now left]. intros [H|H]; [exact H|]. unfold imported_args in H. apply in_map_iff in H. destruct H as (? & H & _). discriminate.
  - intros i. rewrite in_app_iff, AI. split.
    + intros [H|(L & N)].
      * rewrite Ea in H. apply in_flat_map in H. destruct H as (e & _ & H). apply in_map_iff in H. destruct H as (? & H & _). discriminate.
      * split; [exact L|]. intros (s & oe & F). apply N. apply AK. apply AF in F. apply in_map_iff. eexists. split; [|exact F]. reflexivity.
    + intros (L & N). right. split; [exact L|]. intros I. apply N. apply Bc in I. destruct I as (s & m & Em & I). apply in_map_iff in I.
      destruct I as ((i0 & oe) & <- & I). exists s, oe, m. now split.
Qed.

(** What petgraph's [toposort] answers with: the nodes, sources before targets. *)
Definition topological (g : graph) (ordering : list nat) : Prop :=
  Permutation ordering (nodes g) /\
  (forall before t after, ordering = before ++ t :: after -> forall s oe i, feeds g s oe t i -> In s before).

(** Encoding does not panic, makes every instance once, each after the instances
    that feed it, and gives it the right arguments. *)
Theorem C36_encode_partial es ordering : proper_history es new -> 
  exists g, run es new = Some g /\ (topological g ordering ->
    exists made, encode_instantiations ordering g = Some made /\
      Permutation (map fst made) (map fst (instances g)) /\
      (forall before id args after, made = before ++ (id, args) :: after ->
         right_arguments g id args /\ (forall i s oe, In (i, FromInstance s oe) args -> In s (map fst before)))).
Proof.
  intros P. destruct (history_inv es new inv_new P) as (g & R & Iv). exists g. split; [exact R|]. intros (TP & TO). pose proof Iv as (V & C).
  unfold encode_instantiations. set (ind := filter _ _).
  assert (forall n, In n (nodes g) -> exists_instance g n) as NI by (intros n I; apply (lookup_key Nat.eq_dec), (g_node _ _ _ V); exact I).
  assert (forall ids done, (forall n, In n ids -> exists_instance g n) ->
    (forall a id b, ids = a ++ id :: b -> forall s oe i, feeds g s oe id i -> In s (done ++ a)) ->
    exists made, encode_all g done ids = Some made /\ map fst made = ids /\
      (forall before id args after, made = before ++ (id, args) :: after ->
         right_arguments g id args /\ (forall i s oe, In (i, FromInstance s oe) args -> In s (done ++ map fst before)))) as K.
  { induction ids as [|id ids IH]; intros done Ex Or.
    - exists []. split; [reflexivity|]. split; [reflexivity|]. intros [|? ?] ? ? ? E; discriminate.
    - cbn [encode_all]. destruct (args_right g done id Iv) as (args & Ea & Ra).
      + apply Ex. now left.
      + intros s oe i F. specialize (Or [] id ids eq_refl s oe i F). now rewrite app_nil_r in Or.
      + rewrite Ea. destruct (IH (done ++ [id])) as (made & Em & Mm & Am).
        * intros n I. apply Ex. now right.
        * intros a id' b E s oe i F. rewrite <- app_assoc. apply (Or (id :: a) id' b) with (oe := oe) (i := i); [now rewrite E|exact F].
        * rewrite Em. cbn [option_map]. eexists. split; [reflexivity|]. split; [cbn; now rewrite Mm|].
          intros before id' args' after E. destruct before as [|q before]; cbn in E.
          -- injection E as <- <- <-. split; [exact Ra|]. intros i s oe I. destruct Ra as (c & _ & _ & AF & _). apply AF in I.
             specialize (Or [] id ids eq_refl s oe i I). exact Or.
          -- injection E as <- E. destruct (Am before id' args' after E) as (A1 & A2). split; [exact A1|].
             intros i s oe I. specialize (A2 i s oe I). rewrite <- app_assoc in A2. exact A2. }
  assert (forall s oe t i, feeds g s oe t i -> In s (nodes g) /\ In t (nodes g)) as FN.
  { intros s oe t i (m & E & _). apply (g_edge _ _ _ V) in E. tauto. }
  assert (forall n, In n ind <-> exists_instance g n /\ ~ In n ordering) as AI.
  { intros n. unfold ind. rewrite filter_In, negb_true_iff, existsb_out. reflexivity. }
  destruct (K (ind ++ ordering) []) as (made & Em & Mm & Am).
  - intros n I. apply in_app_or in I. destruct I as [I|I]; [now apply AI in I|]. apply NI. eapply Permutation_in; [exact TP|exact I].
  - intros a id b E s oe i F. cbn. destruct (FN _ _ _ _ F) as (Fs & Ft).
    assert (In id ordering) as Io by (eapply Permutation_in; [apply Permutation_sym, TP|exact Ft]).
    assert (~ In id ind) as Ni by (intros H; apply AI in H; tauto).
    assert (exists a', a = ind ++ a' /\ ordering = a' ++ id :: b) as (a' & -> & Eo).
    { clear - E Ni. revert a E Ni. induction ind as [|z l IH]; intros a E Ni; [exists a; now split|].
      destruct a as [|y a]; cbn in E; [injection E as -> E; destruct Ni; now left|]. injection E as -> E.
      destruct (IH a E) as (a' & -> & Eo); [intros H; apply Ni; now right|]. exists a'. now split. }
    apply in_or_app. right. exact (TO a' id b Eo s oe i F).
  - exists made. split; [exact Em|]. split.
    + rewrite Mm. apply NoDup_Permutation.
      * assert (NoDup ordering) as No by (eapply Permutation_NoDup; [apply Permutation_sym, TP|apply (g_nodes _ _ _ V)]).
        assert (NoDup ind) as Nd by (apply NoDup_filter, (g_insts _ _ _ V)).
        clear - No Nd AI. assert (forall z, In z ind -> ~ In z ordering) as D by (intros z I; apply AI in I; tauto).
        clear AI. induction ind as [|a l IH]; [exact No|]. inversion Nd; subst. cbn. constructor.
        -- rewrite in_app_iff. intros [J|J]; [contradiction|]. apply (D a); [now left|exact J].
        -- apply IH; [assumption|]. intros z Hz. apply D. now right.
      * apply (g_insts _ _ _ V).
      * intros n. rewrite in_app_iff, AI. split.
        -- intros [(H & _)|H]; [exact H|]. apply NI. eapply Permutation_in; [exact TP|exact H].
        -- intros H. destruct (in_dec Nat.eq_dec n ordering); [now right|left; now split].
    + exact Am.
Qed.
Print Assumptions C36_encode_partial.

(** With a cycle of connections there is no such order. *)
Theorem C36_cycle es ordering : proper_history es new -> exists g, run es new = Some g /\
  (topological g ordering -> forall a, ~ clos_trans nat (fun t s => exists oe i, feeds g s oe t i) a a).
Proof.
  intros P. destruct (history_inv es new inv_new P) as (g & R & (V & C)). exists g. split; [exact R|]. intros (TP & TO) a Cy.
  assert (NoDup ordering) as No by (eapply Permutation_NoDup; [apply Permutation_sym, TP|apply (g_nodes _ _ _ V)]).
  assert (forall x y, clos_trans nat (fun t s => exists oe i, feeds g s oe t i) x y -> exists before rest, ordering = before ++ x :: rest /\ In y before) as K.
  { intros x y T. apply clos_trans_t1n in T. induction T as [x y (oe & i & F)|x y z (oe & i & F) T IH].
    - assert (In x ordering) as Ix by (eapply Permutation_in; [apply Permutation_sym, TP|]; destruct F as (m & E & _); apply (g_edge _ _ _ V) in E; tauto).
      apply in_split in Ix. destruct Ix as (before & rest & E). exists before, rest. split; [exact E|]. exact (TO before x rest E y oe i F).
    - assert (In x ordering) as Ix by (eapply Permutation_in; [apply Permutation_sym, TP|]; destruct F as (m & E & _); apply (g_edge _ _ _ V) in E; tauto).
      apply in_split in Ix. destruct Ix as (before & rest & E). exists before, rest. split; [exact E|].
      pose proof (TO before x rest E y oe i F) as Iy. destruct IH as (b2 & r2 & E2 & Iz).
      apply in_split in Iy. destruct Iy as (u & v & ->). rewrite <- app_assoc in E. cbn in E.
      assert (u = b2) as ->.
      { rewrite E in E2. rewrite E in No. clear - E2 No. revert b2 E2. induction u as [|w u IH]; intros [|w' b2] E2; cbn in *.
        - reflexivity.
        - injection E2 as -> E2. exfalso. inversion No as [|? ? N1 N2]; subst. apply N1. rewrite E2. apply in_or_app. right. now left.
        - injection E2 as -> E2. exfalso. inversion No as [|? ? N1 N2]; subst. apply N1. apply in_or_app. right. now left.
        - injection E2 as -> E2. f_equal. inversion No as [|? ? N1 N2]; subst. now apply IH. }
      apply in_or_app. now left. }
  destruct (K a a Cy) as (before & rest & E & I). rewrite E in No. apply NoDup_remove_2 in No. apply No, in_or_app. now left.
Qed.
Print Assumptions C36_cycle.

(** A component with two imports and one export, three instances of it. *)
Definition case_component : component := Component (lit "c") [lit "x"; lit "y"] 1.
Definition case_history : list edit :=
  [AddComponent 5 case_component; Instantiate 0 5; Instantiate 0 5; Instantiate 2 5;
   Connect true 0 (Some 0) 4 0; Connect true 1 None 4 1; Connect true 0 (Some 0) 1 1; Disconnect 1 4 1; Connect true 0 None 4 1].
Lemma feeds_In (es : list (nat * nat * edge_map)) s t m : elookup (s, t) es = Some m -> In (s, t, m) es.
Proof. apply lookup_In. Qed.
Example C36_case : proper_history case_history new /\
  exists g, run case_history new = Some g /\ encode_instantiations [0; 1; 4] g =
    Some [(0, [(0, Imported); (1, Imported)]); (1, [(1, FromInstance 0 (Some 0)); (0, Imported)]);
          (4, [(0, FromInstance 0 (Some 0)); (1, FromInstance 0 None)])].
Proof.
  split.
  - cbv -[feeds]. repeat split. intros s' oe (m & E & I). apply feeds_In in E. cbn in E.
    repeat (destruct E as [E|E]; [solve [discriminate E|injection E as <- <-; cbn in I; repeat (destruct I as [I|I]; [congruence|]); destruct I]|]). destruct E.
  - eexists. split; vm_compute; reflexivity.
Qed.

(** The full property, for every history, does not hold: [disconnect] is
    documented to do nothing when the two instances are not connected by that
    import, but opens the import although another instance feeds it.  Then the
    import is given twice, and connecting it again panics. *)
Theorem C36_refuted :
  exists es s t i, (exists g, run es new = Some g /\ (forall oe, ~ feeds g s oe t i) /\
     exists g', step (Disconnect s t i) g = Done g' /\
       encode_instantiations [0; 4; 1] g = Some [(0, [(0, Imported); (1, Imported)]); (4, [(0, Imported); (1, Imported)]); (1, [(0, FromInstance 0 None); (1, Imported)])] /\
       encode_instantiations [0; 4; 1] g' = Some [(0, [(0, Imported); (1, Imported)]); (4, [(0, Imported); (1, Imported)]); (1, [(0, FromInstance 0 None); (0, Imported); (1, Imported)])] /\
       step (Connect true 0 None 1 0) g = Failed /\ step (Connect true 0 None 1 0) g' = Panicked).
Proof.
  exists [AddComponent 5 case_component; Instantiate 0 5; Instantiate 0 5; Instantiate 2 5; Connect true 0 None 1 0], 4, 1, 0.
  eexists. split; [vm_compute; reflexivity|]. split; [|eexists; split; [vm_compute; reflexivity|]; repeat split; vm_compute; reflexivity].
  intros oe (m & E & I). apply feeds_In in E. cbn in E. destruct E as [E|[]]. discriminate.
Qed.
Print Assumptions C36_refuted.
