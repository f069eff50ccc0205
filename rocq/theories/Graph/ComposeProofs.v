(** The graph stays consistent. *)
From Coq Require Import ZArith Lia List Bool Arith Permutation.
From Verif Require Import Base.Prelude Names.Kebab Graph.Compose Graph.ComposeMaps.
Import ListNotations.
Open Scope nat_scope.

Notation elookup := (lookup pair_dec).
Record GInv (insts : list (nat * instance)) (ns : list nat) (es : list (nat * nat * edge_map)) : Prop := {
  g_insts : NoDup (map fst insts);
  g_edges : NoDup (map fst es);
  g_nodes : NoDup ns;
  g_node : forall n, In n ns -> exists x, nlookup n insts = Some x;
  g_edge : forall s t m, elookup (s, t) es = Some m -> s <> t /\ In s ns /\ In t ns /\ m <> [] /\ NoDup (map fst m);
  g_conn : forall t x, nlookup t insts = Some x -> NoDup (i_connected x) /\
    (forall i, In i (i_connected x) <-> exists s m, elookup (s, t) es = Some m /\ In i (map fst m));
  g_one : forall s s' t m m' i, elookup (s, t) es = Some m -> In i (map fst m) -> elookup (s', t) es = Some m' -> In i (map fst m') -> s = s' }.

Lemma fold_disconnected (m : edge_map) : forall x, NoDup (i_connected x) ->
  let x' := fold_left (fun x e => disconnected (fst e) x) m x in
  i_component x' = i_component x /\ NoDup (i_connected x') /\ (forall j, In j (i_connected x') <-> In j (i_connected x) /\ ~ In j (map fst m)).
Proof.
  induction m as [|[i oe] m IH]; intros x N; cbn [fold_left map fst].
  - split; [reflexivity|]. split; [exact N|]. intros j. cbn. tauto.
  - destruct (remove_elem i (i_connected x) N) as (N1 & A1).
    destruct (IH (disconnected i x)) as (C & N2 & A2); [exact N1|]. split; [exact C|]. split; [exact N2|].
    intros j. rewrite A2. cbn [disconnected i_connected In]. rewrite A1. intuition congruence.
Qed.

Definition opened (insts insts' : list (nat * instance)) (out : list (nat * nat * edge_map)) : Prop :=
  map fst insts' = map fst insts /\
  forall t, match nlookup t insts with
            | None => nlookup t insts' = None
            | Some x => exists x', nlookup t insts' = Some x' /\ i_component x' = i_component x /\ NoDup (i_connected x') /\
                (forall j, In j (i_connected x') <-> In j (i_connected x) /\ ~ exists s m, In (s, t, m) out /\ In j (map fst m))
            end.
Lemma open_imports_spec : forall out insts, (forall t x, nlookup t insts = Some x -> NoDup (i_connected x)) ->
  (forall s t m, In (s, t, m) out -> exists x, nlookup t insts = Some x) ->
  exists insts', open_imports out insts = Some insts' /\ opened insts insts' out.
Proof.
  induction out as [|[[s t] m] out IH]; intros insts N P.
  - exists insts. split; [reflexivity|]. split; [reflexivity|]. intros t. destruct (nlookup t insts) as [x|] eqn:E; [|reflexivity].
    exists x. split; [reflexivity|]. split; [reflexivity|]. split; [now apply (N t)|]. intros j. split; [|tauto]. intros I. split; [exact I|]. intros (? & ? & [] & _).
  - cbn [open_imports]. destruct (P s t m (or_introl eq_refl)) as (x & E). rewrite E.
    destruct (fold_disconnected m x (N t x E)) as (C & N2 & A2). set (x' := fold_left _ m x) in *.
    destruct (IH (ninsert t x' insts)) as (insts' & O & K & A).
    + intros t0 x0. rewrite lookup_insert. destruct (Nat.eq_dec t0 t) as [->|]; [intros [= <-]; exact N2|apply N].
    + intros s0 t0 m0 I. rewrite lookup_insert. destruct (Nat.eq_dec t0 t); [eauto|]. apply (P s0 t0 m0). now right.
    + exists insts'. split; [exact O|]. split.
      * rewrite K, insert_keys. destruct (in_dec Nat.eq_dec t (map fst insts)) as [|NI]; [reflexivity|].
        apply lookup_none with (eqd := Nat.eq_dec) in NI. congruence.
      * intros t0. specialize (A t0). rewrite lookup_insert in A. destruct (Nat.eq_dec t0 t) as [->|D].
        -- rewrite E. destruct A as (x2 & E2 & C2 & N3 & A3). exists x2. split; [exact E2|]. split; [congruence|]. split; [exact N3|].
           intros j. rewrite A3, A2. split.
           ++ intros ((I1 & I2) & I3). split; [exact I1|]. intros (s0 & m0 & [[= -> ->]|I] & J); [now apply I2|]. apply I3. eauto.
           ++ intros (I1 & I2). split; [split; [exact I1|]|].
              ** intros J. apply I2. exists s, m. split; [now left|exact J].
              ** intros (s0 & m0 & I & J). apply I2. exists s0, m0. split; [now right|exact J].
        -- destruct (nlookup t0 insts) as [x0|]; [|exact A]. destruct A as (x2 & E2 & C2 & N3 & A3). exists x2. split; [exact E2|]. split; [exact C2|].
           split; [exact N3|]. intros j. rewrite A3. split; intros (I1 & I2); (split; [exact I1|]); intros (s0 & m0 & I & J); apply I2.
           ++ destruct I as [[= -> -> ->]|I]; [congruence|eauto].
           ++ exists s0, m0. split; [now right|exact J].
Qed.

Lemma drop_lookup id s t es : elookup (s, t) (drop_edges id es) = if (s =? id) || (t =? id) then None else elookup (s, t) es.
Proof.
  unfold drop_edges. rewrite (lookup_filter pair_dec (s, t) (fun k => negb (fst k =? id) && negb (snd k =? id)) es). cbn.
  destruct (s =? id), (t =? id); reflexivity.
Qed.
Lemma outgoing_In id s t m es : NoDup (map fst es) -> (In (s, t, m) (outgoing id es) <-> s = id /\ elookup (s, t) es = Some m).
Proof.
  intros N. unfold outgoing. rewrite filter_In. cbn. rewrite Nat.eqb_eq. rewrite (lookup_iff pair_dec _ _ _ N). tauto.
Qed.
Lemma drop_node_In id ns : NoDup ns -> NoDup (drop_node id ns) /\ forall n, In n (drop_node id ns) <-> In n ns /\ n <> id.
Proof. apply remove_elem. Qed.

(** The components of the instances. *)
Definition comp_of (insts : list (nat * instance)) (i : nat) : option nat := option_map i_component (nlookup i insts).

Lemma remove_one insts ns es id : GInv insts ns es -> In id (map fst insts) ->
  exists insts', open_imports (outgoing id es) (nremove id insts) = Some insts' /\
    GInv insts' (drop_node id ns) (drop_edges id es) /\
    (forall t, comp_of insts' t = if t =? id then None else comp_of insts t).
Proof.
  intros V Iid. destruct V as [V1 V2 V3 V4 V5 V6 V7].
  assert (forall t, nlookup t (nremove id insts) = if Nat.eq_dec t id then None else nlookup t insts) as LR by (intros t; now apply lookup_remove).
  destruct (open_imports_spec (outgoing id es) (nremove id insts)) as (insts' & O & K & A).
  - intros t x. rewrite LR. destruct (Nat.eq_dec t id); [discriminate|]. intros E. apply (V6 t x E).
  - intros s t m I. apply outgoing_In in I; [|exact V2]. destruct I as (-> & E). destruct (V5 _ _ _ E) as (D & _ & It & _).
    rewrite LR. destruct (Nat.eq_dec t id); [congruence|]. now apply V4.
  - exists insts'. split; [exact O|].
    assert (forall t, comp_of insts' t = if t =? id then None else comp_of insts t) as CO.
    { intros t. specialize (A t). rewrite LR in A. unfold comp_of. destruct (Nat.eq_dec t id) as [->|D].
      - rewrite Nat.eqb_refl, A. reflexivity.
      - apply Nat.eqb_neq in D. rewrite D. destruct (nlookup t insts) as [x|]; [|now rewrite A]. destruct A as (x' & -> & C & _). cbn. now rewrite C. }
    split; [|exact CO].
    assert (forall s t m, elookup (s, t) (drop_edges id es) = Some m <-> s <> id /\ t <> id /\ elookup (s, t) es = Some m) as DL.
    { intros s t m. rewrite drop_lookup. destruct (Nat.eqb_spec s id), (Nat.eqb_spec t id); cbn; intuition congruence. }
    destruct (drop_node_In id ns V3) as (Nn & An). split.
    + rewrite K. now apply remove_nodup.
    + unfold drop_edges. now apply filter_nodup_map.
    + exact Nn.
    + intros n I. apply An in I. destruct I as (I & D). destruct (V4 n I) as (x & E).
      specialize (CO n). unfold comp_of in CO. apply Nat.eqb_neq in D. rewrite D, E in CO. destruct (nlookup n insts') as [x'|]; [eauto|discriminate].
    + intros s t m E. apply DL in E. destruct E as (D1 & D2 & E). destruct (V5 _ _ _ E) as (W1 & W2 & W3 & W4 & W5).
      split; [exact W1|]. split; [now apply An|]. split; [now apply An|]. now split.
    + intros t x' E. specialize (A t). rewrite LR in A. destruct (Nat.eq_dec t id) as [->|D]; [congruence|].
      destruct (nlookup t insts) as [x|] eqn:Ex; [|congruence]. destruct A as (x2 & E2 & _ & N2 & A2). rewrite E in E2. injection E2 as <-.
      split; [exact N2|]. intros j. rewrite A2. destruct (V6 t x Ex) as (_ & B). rewrite B. split.
      * intros ((s & m & Em & I) & Nex). exists s, m. split; [|exact I]. apply DL. split; [|split; assumption].
        intros ->. apply Nex. exists id, m. split; [|exact I]. apply outgoing_In; [exact V2|]. now split.
      * intros (s & m & Em & I). apply DL in Em. destruct Em as (D1 & _ & Em). split; [eauto|].
        intros (s2 & m2 & I2 & J2). apply outgoing_In in I2; [|exact V2]. destruct I2 as (-> & E2). apply D1. exact (V7 _ _ _ _ _ _ Em I E2 J2).
    + intros s s' t m m' i E1 I1 E2 I2. apply DL in E1, E2. apply (V7 s s' t m m' i); tauto.
Qed.

Lemma remove_all_spec : forall ids insts ns es, GInv insts ns es -> NoDup ids -> (forall i, In i ids -> In i (map fst insts)) ->
  exists insts' ns' es', remove_all ids insts ns es = Some (insts', ns', es') /\ GInv insts' ns' es' /\
    (forall t, comp_of insts' t = if existsb (Nat.eqb t) ids then None else comp_of insts t) /\
    (forall s t, elookup (s, t) es' = if existsb (Nat.eqb s) ids || existsb (Nat.eqb t) ids then None else elookup (s, t) es).
Proof.
  induction ids as [|id ids IH]; intros insts ns es V N P.
  - exists insts, ns, es. split; [reflexivity|]. split; [exact V|]. split; reflexivity.
  - cbn [remove_all]. destruct (remove_one insts ns es id V) as (insts1 & -> & V1 & C1); [apply P; now left|].
    inversion N as [|? ? N1 N2]; subst.
    destruct (IH insts1 (drop_node id ns) (drop_edges id es) V1 N2) as (insts' & ns' & es' & R & V' & C' & L').
    + intros i I. specialize (C1 i). assert (i <> id) as D by (intros ->; contradiction). apply Nat.eqb_neq in D. rewrite D in C1.
      assert (In i (map fst insts)) as I0 by (apply P; now right). apply (lookup_key Nat.eq_dec) in I0. destruct I0 as (x & E).
      unfold comp_of in C1. rewrite E in C1. apply (lookup_key Nat.eq_dec). destruct (nlookup i insts1) as [y|]; [now exists y|discriminate].
    + exists insts', ns', es'. split; [exact R|]. split; [exact V'|]. split.
      * intros t. rewrite C', C1. cbn [existsb]. destruct (t =? id), (existsb (Nat.eqb t) ids); reflexivity.
      * intros s t. rewrite L', drop_lookup. cbn [existsb].
        destruct (s =? id), (t =? id), (existsb (Nat.eqb s) ids), (existsb (Nat.eqb t) ids); reflexivity.
Qed.

(** The component an instance was made of. *)
Definition made_of (insts : list (nat * instance)) (comps : list (nat * entry)) (i : nat) : option component :=
  match comp_of insts i with Some c => option_map e_component (nlookup c comps) | None => None end.
Record CInv (g : graph) : Prop := {
  c_names : NoDup (map fst (names g));
  c_comps : NoDup (map fst (components g));
  c_named : forall n c, lookup str_dec n (names g) = Some c <-> exists e, nlookup c (components g) = Some e /\ c_name (e_component e) = n;
  c_inst : forall c e, nlookup c (components g) = Some e -> NoDup (e_instances e) /\ (forall i, In i (e_instances e) <-> comp_of (instances g) i = Some c);
  c_comp : forall i c, comp_of (instances g) i = Some c -> exists e, nlookup c (components g) = Some e;
  c_nextc : forall c e, nlookup c (components g) = Some e -> c < next_component g;
  c_nexti : forall i c, comp_of (instances g) i = Some c -> i < next_instance g;
  c_valid : forall s t m i oe, elookup (s, t) (edges g) = Some m -> In (i, oe) m ->
    exists sc tc, made_of (instances g) (components g) s = Some sc /\ made_of (instances g) (components g) t = Some tc /\
      i < List.length (c_imports tc) /\ match oe with Some e => e < c_exports sc | None => True end }.
Definition Inv (g : graph) : Prop := GInv (instances g) (nodes g) (edges g) /\ CInv g.

(** A call that disconnects names the instance which feeds the import, if one does. *)
Definition proper (e : edit) (g : graph) : Prop :=
  match e with
  | Disconnect s t i => forall s' m, elookup (s', t) (edges g) = Some m -> In i (map fst m) -> s' = s
  | _ => True
  end.

Lemma inv_new : Inv new.
Proof. split; split; cbn; try constructor; try discriminate; try contradiction. intros (e & E & _). discriminate. Qed.

Lemma comp_lookup insts i c : comp_of insts i = Some c <-> exists x, nlookup i insts = Some x /\ i_component x = c.
Proof. unfold comp_of. destruct (nlookup i insts) as [x|]; cbn; split; [intros [= <-]; eauto|intros (y & [= <-] & <-); reflexivity|discriminate|intros (y & E & _); discriminate]. Qed.

Lemma add_component_inv k c g : Inv g -> add_component k c g <> Panicked /\ (forall g', add_component k c g = Done g' -> Inv g').
Proof.
  intros (V & [C1 C2 C3 C4 C5 C6 C7 C8]). unfold add_component.
  destruct (lookup str_dec (c_name c) (names g)) as [old|] eqn:En; [split; discriminate|].
  destruct (nlookup (next_component g + k) (components g)) as [e0|] eqn:E0; [apply C6 in E0; lia|].
  split; [discriminate|]. intros g' [= <-]. split; [exact V|].
  assert (forall c' e, nlookup c' (components g) = Some e -> c' <> next_component g + k) as Fr by (intros c' e E; apply C6 in E; lia).
  split; cbn [names components instances edges next_component next_instance].
  - now apply insert_nodup.
  - now apply insert_nodup.
  - intros n c'. rewrite !lookup_insert. destruct (Nat.eq_dec c' (next_component g + k)) as [->|Dc].
    + destruct (str_dec n (c_name c)) as [->|D].
      * split; [intros _; exists (Entry c []); now split|reflexivity].
      * split; [|intros (e & [= <-] & N); cbn in N; congruence]. intros H. apply C3 in H. destruct H as (e & E & _). destruct (Fr _ _ E). reflexivity.
    + rewrite <- C3. destruct (str_dec n (c_name c)) as [->|D]; [|reflexivity]. rewrite En. split; [congruence|discriminate].
  - intros c' e E. rewrite lookup_insert in E. destruct (Nat.eq_dec c' (next_component g + k)) as [->|]; [|now apply C4].
    injection E as <-. cbn. split; [constructor|]. intros i. split; [intros []|]. intros H. destruct (C5 _ _ H) as (e & E). destruct (Fr _ _ E). reflexivity.
  - intros i c' H. destruct (C5 _ _ H) as (e & E). exists e. rewrite lookup_insert. destruct (Nat.eq_dec c' (next_component g + k)) as [->|]; [|exact E].
    destruct (Fr _ _ E). reflexivity.
  - intros c' e E. rewrite lookup_insert in E. destruct (Nat.eq_dec c' (next_component g + k)) as [->|]; [lia|]. apply C6 in E. lia.
  - exact C7.
  - intros s t m i oe E I. destruct (C8 s t m i oe E I) as (sc & tc & S1 & S2 & S3). exists sc, tc.
    assert (forall i c0, made_of (instances g) (components g) i = Some c0 ->
       made_of (instances g) (ninsert (next_component g + k) (Entry c []) (components g)) i = Some c0) as M.
    { intros i0 c0. unfold made_of. destruct (comp_of (instances g) i0) as [c'|] eqn:Ec; [|discriminate]. rewrite lookup_insert.
      destruct (Nat.eq_dec c' (next_component g + k)) as [->|]; [|auto]. rewrite E0. discriminate. }
    split; [now apply M|]. split; [now apply M|exact S3].
Qed.

Lemma instantiate_inv k c g : Inv g -> instantiate k c g <> Panicked /\ (forall g', instantiate k c g = Done g' -> Inv g').
Proof.
  intros (V & [C1 C2 C3 C4 C5 C6 C7 C8]). unfold instantiate.
  destruct (nlookup c (components g)) as [e|] eqn:Ec; [|split; discriminate].
  split; [discriminate|]. intros g' [= <-].
  set (i := next_instance g + k).
  assert (comp_of (instances g) i = None) as Fi.
  { destruct (comp_of (instances g) i) as [c'|] eqn:E; [|reflexivity]. apply C7 in E. unfold i in E. lia. }
  assert (nlookup i (instances g) = None) as Fl by (unfold comp_of in Fi; destruct (nlookup i (instances g)); [discriminate|reflexivity]).
  assert (forall j, comp_of (ninsert i (Instance c []) (instances g)) j = if j =? i then Some c else comp_of (instances g) j) as CO.
  { intros j. unfold comp_of. rewrite lookup_insert. destruct (Nat.eq_dec j i) as [->|D]; [now rewrite Nat.eqb_refl|]. apply Nat.eqb_neq in D. now rewrite D. }
  assert (forall c', nlookup c' (ninsert c (Entry (e_component e) (i :: e_instances e)) (components g)) =
    if Nat.eq_dec c' c then Some (Entry (e_component e) (i :: e_instances e)) else nlookup c' (components g)) as CL by (intros c'; apply lookup_insert).
  split.
  - destruct V as [V1 V2 V3 V4 V5 V6 V7]. cbn [instances nodes edges]. split; try assumption.
    + now apply insert_nodup.
    + intros n I. rewrite lookup_insert. destruct (Nat.eq_dec n i); [eauto|]. now apply V4.
    + intros t x. rewrite lookup_insert. destruct (Nat.eq_dec t i) as [->|]; [|apply V6]. intros [= <-]. cbn. split; [constructor|].
      intros j. split; [intros []|]. intros (s & m & E & _). destruct (V5 _ _ _ E) as (_ & _ & It & _). apply V4 in It. destruct It as (x & E2). congruence.
  - split; cbn [names components instances edges next_component next_instance]; try assumption.
    + now apply insert_nodup.
    + intros n c'. rewrite C3. split; intros (e0 & E0 & N0).
      * rewrite CL. destruct (Nat.eq_dec c' c) as [->|]; [|eauto]. eexists. split; [reflexivity|]. cbn. congruence.
      * rewrite CL in E0. destruct (Nat.eq_dec c' c) as [->|]; [|eauto]. injection E0 as <-. cbn in N0. eauto.
    + intros c' e0 E0. rewrite CL in E0. destruct (Nat.eq_dec c' c) as [->|D].
      * injection E0 as <-. destruct (C4 c e Ec) as (N & A). cbn. split.
        -- constructor; [|exact N]. intros I. apply A in I. congruence.
        -- intros j. rewrite CO. destruct (Nat.eqb_spec j i) as [->|D]; [tauto|]. rewrite A. split; [intros [E|E]; [congruence|exact E]|now right].
      * destruct (C4 c' e0 E0) as (N & A). split; [exact N|]. intros j. rewrite CO, A. destruct (Nat.eqb_spec j i) as [->|]; [|reflexivity].
        rewrite Fi. split; [discriminate|]. congruence.
    + intros j c' H. rewrite CO in H. rewrite CL. destruct (Nat.eq_dec c' c); [eauto|]. destruct (j =? i); [congruence|]. now apply (C5 j).
    + intros c' e0. rewrite CL. destruct (Nat.eq_dec c' c) as [->|]; [intros _; now apply (C6 c e)|apply C6].
    + intros j c'. rewrite CO. destruct (Nat.eqb_spec j i) as [->|]; [lia|]. intros H. apply C7 in H. lia.
    + intros s t m i0 oe E I. destruct (C8 s t m i0 oe E I) as (sc & tc & S1 & S2 & S3). exists sc, tc.
      assert (forall j c0, made_of (instances g) (components g) j = Some c0 ->
        made_of (ninsert i (Instance c []) (instances g)) (ninsert c (Entry (e_component e) (i :: e_instances e)) (components g)) j = Some c0) as M.
      { intros j c0. unfold made_of. rewrite CO. destruct (Nat.eqb_spec j i) as [->|D]; [rewrite Fi; discriminate|].
        destruct (comp_of (instances g) j) as [c'|]; [|discriminate]. rewrite CL. destruct (Nat.eq_dec c' c) as [->|]; [|auto]. rewrite Ec. auto. }
      split; [now apply M|]. split; [now apply M|exact S3].
Qed.

Lemma remove_component_inv id g : Inv g -> remove_component id g <> Panicked /\ (forall g', remove_component id g = Done g' -> Inv g').
Proof.
  intros (V & [C1 C2 C3 C4 C5 C6 C7 C8]). unfold remove_component.
  destruct (nlookup id (components g)) as [e|] eqn:Ec.
  2:{ split; [discriminate|]. intros g' [= <-]. split; [exact V|now split]. }
  assert (lookup str_dec (c_name (e_component e)) (names g) = Some id) as En by (apply C3; eauto).
  rewrite En. destruct (C4 id e Ec) as (Ne & Ae).
  destruct (remove_all_spec (e_instances e) (instances g) (nodes g) (edges g) V Ne) as (insts & ns & es & R & V' & CO & L).
  { intros i I. apply Ae in I. apply comp_lookup in I. destruct I as (x & E & _). apply (lookup_key Nat.eq_dec). eauto. }
  rewrite R. split; [discriminate|]. intros g' [= <-]. split; [exact V'|].
  assert (forall i c, comp_of insts i = Some c <-> comp_of (instances g) i = Some c /\ c <> id) as CO'.
  { intros i c. rewrite CO. destruct (existsb (Nat.eqb i) (e_instances e)) eqn:X.
    - apply existsb_In in X. apply Ae in X. split; [discriminate|]. intros (H & D). congruence.
    - apply existsb_out in X. split; [|tauto]. intros H. split; [exact H|]. intros ->. apply X. now apply Ae. }
  assert (forall c, nlookup c (nremove id (components g)) = if Nat.eq_dec c id then None else nlookup c (components g)) as CL by (intros c; now apply lookup_remove).
  split; cbn [names components instances edges next_component next_instance].
  - now apply remove_nodup.
  - now apply remove_nodup.
  - intros n c. rewrite lookup_remove by exact C1. destruct (str_dec n (c_name (e_component e))) as [->|D].
    + split; [discriminate|]. intros (e0 & E0 & N0). rewrite CL in E0. destruct (Nat.eq_dec c id) as [->|D]; [discriminate|].
      exfalso. enough (lookup str_dec (c_name (e_component e)) (names g) = Some c) by congruence. apply C3. eauto.
    + rewrite C3. split; intros (e0 & E0 & N0); exists e0; (split; [|exact N0]).
      * rewrite CL. destruct (Nat.eq_dec c id) as [->|]; [|exact E0]. congruence.
      * rewrite CL in E0. destruct (Nat.eq_dec c id); [discriminate|exact E0].
  - intros c e0 E0. rewrite CL in E0. destruct (Nat.eq_dec c id) as [|D]; [discriminate|]. destruct (C4 c e0 E0) as (N & A).
    split; [exact N|]. intros i. rewrite A, CO'. tauto.
  - intros i c H. apply CO' in H. destruct H as (H & D). rewrite CL. destruct (Nat.eq_dec c id); [congruence|]. now apply (C5 i).
  - intros c e0. rewrite CL. destruct (Nat.eq_dec c id); [discriminate|apply C6].
  - intros i c H. apply CO' in H. now apply (C7 i c).
  - intros s t m i oe E I. rewrite L in E. destruct (existsb (Nat.eqb s) (e_instances e)) eqn:Xs; [discriminate|].
    destruct (existsb (Nat.eqb t) (e_instances e)) eqn:Xt; [discriminate|]. cbn in E.
    destruct (C8 s t m i oe E I) as (sc & tc & S1 & S2 & S3). exists sc, tc.
    assert (forall j c0, existsb (Nat.eqb j) (e_instances e) = false -> made_of (instances g) (components g) j = Some c0 ->
       made_of insts (nremove id (components g)) j = Some c0) as M.
    { intros j c0 Xj. unfold made_of. rewrite CO, Xj. destruct (comp_of (instances g) j) as [c'|] eqn:Ej; [|discriminate]. rewrite CL.
      destruct (Nat.eq_dec c' id) as [->|]; [|auto]. apply Ae, existsb_In in Ej. congruence. }
    split; [now apply M|]. split; [now apply M|exact S3].
Qed.

Lemma remove_instance_inv id g : Inv g -> remove_instance id g <> Panicked /\ (forall g', remove_instance id g = Done g' -> Inv g').
Proof.
  intros (V & [C1 C2 C3 C4 C5 C6 C7 C8]). unfold remove_instance.
  destruct (nlookup id (instances g)) as [x|] eqn:Ex.
  2:{ split; [discriminate|]. intros g' [= <-]. split; [exact V|now split]. }
  assert (comp_of (instances g) id = Some (i_component x)) as Cid by (apply comp_lookup; eauto).
  destruct (C5 _ _ Cid) as (e & Ec). rewrite Ec.
  destruct (remove_one (instances g) (nodes g) (edges g) id V) as (insts & -> & V' & CO).
  { apply (lookup_key Nat.eq_dec). eauto. }
  split; [discriminate|]. intros g' [= <-]. split; [exact V'|].
  set (e' := Entry (e_component e) (swap_remove (Nat.eqb id) (e_instances e))).
  destruct (C4 _ _ Ec) as (Ne & Ae). destruct (remove_elem id (e_instances e) Ne) as (Ne' & Ae').
  assert (forall c, nlookup c (ninsert (i_component x) e' (components g)) = if Nat.eq_dec c (i_component x) then Some e' else nlookup c (components g)) as CL by (intros c; apply lookup_insert).
  split; cbn [names components instances edges next_component next_instance].
  - exact C1.
  - now apply insert_nodup.
  - intros n c. rewrite C3. split; intros (e0 & E0 & N0).
    + rewrite CL. destruct (Nat.eq_dec c (i_component x)) as [->|]; [|eauto]. exists e'. split; [reflexivity|]. cbn. congruence.
    + rewrite CL in E0. destruct (Nat.eq_dec c (i_component x)) as [->|]; [|eauto]. injection E0 as <-. exists e. now split.
  - intros c e0 E0. rewrite CL in E0. destruct (Nat.eq_dec c (i_component x)) as [->|D].
    + injection E0 as <-. cbn. split; [exact Ne'|]. intros i. rewrite Ae', Ae, CO. destruct (Nat.eqb_spec i id) as [->|]; [|tauto]. split; [tauto|discriminate].
    + destruct (C4 c e0 E0) as (N & A). split; [exact N|]. intros i. rewrite A, CO. destruct (Nat.eqb_spec i id) as [->|]; [|tauto].
      rewrite Cid. split; [congruence|discriminate].
  - intros i c H. rewrite CO in H. rewrite CL. destruct (Nat.eq_dec c (i_component x)); [eauto|]. destruct (i =? id); [discriminate|]. now apply (C5 i).
  - intros c e0. rewrite CL. destruct (Nat.eq_dec c (i_component x)) as [->|]; [intros _; now apply (C6 _ e)|apply C6].
  - intros i c. rewrite CO. destruct (i =? id); [discriminate|apply C7].
  - intros s t m i oe E I. rewrite drop_lookup in E. destruct (Nat.eqb_spec s id) as [|Ds]; [discriminate|]. destruct (Nat.eqb_spec t id) as [|Dt]; [discriminate|]. cbn in E.
    destruct (C8 s t m i oe E I) as (sc & tc & S1 & S2 & S3). exists sc, tc.
    assert (forall j c0, j <> id -> made_of (instances g) (components g) j = Some c0 ->
       made_of insts (ninsert (i_component x) e' (components g)) j = Some c0) as M.
    { intros j c0 Dj. unfold made_of. rewrite CO. apply Nat.eqb_neq in Dj. rewrite Dj. destruct (comp_of (instances g) j) as [c'|] eqn:Ej; [|discriminate]. rewrite CL.
      destruct (Nat.eq_dec c' (i_component x)) as [->|]; [|auto]. rewrite Ec. auto. }
    split; [now apply M|]. split; [now apply M|exact S3].
Qed.

Lemma add_node_spec n ns : NoDup ns -> NoDup (add_node n ns) /\ (forall x, In x (add_node n ns) <-> In x ns \/ x = n).
Proof.
  intros N. unfold add_node. destruct (existsb (Nat.eqb n) ns) eqn:E.
  - apply existsb_In in E. split; [exact N|]. intros x. split; [now left|]. intros [H| ->]; assumption.
  - apply existsb_out in E. split.
    + apply (Permutation_NoDup (l := n :: ns)); [apply Permutation_cons_append|now constructor].
    + intros x. rewrite in_app_iff. cbn. intuition congruence.
Qed.

(** What a connection needs. *)
Lemma validate_spec fits s oe t i g : Inv g -> exists b, validate_connection fits s oe t i g = Some b /\
  (b = true -> s <> t /\ exists xs xt sc tc, nlookup s (instances g) = Some xs /\ nlookup t (instances g) = Some xt /\
     made_of (instances g) (components g) s = Some sc /\ made_of (instances g) (components g) t = Some tc /\
     i < List.length (c_imports tc) /\ ~ In i (i_connected xt) /\ match oe with Some e => e < c_exports sc | None => True end).
Proof.
  intros (V & C). unfold validate_connection. destruct (Nat.eqb_spec s t) as [|D]; [exists false; split; [reflexivity|discriminate]|].
  destruct (nlookup s (instances g)) as [xs|] eqn:Es; [|exists false; split; [reflexivity|discriminate]].
  assert (comp_of (instances g) s = Some (i_component xs)) as Cs by (apply comp_lookup; eauto).
  destruct (c_comp g C _ _ Cs) as (es & Ecs). rewrite Ecs.
  destruct (nlookup t (instances g)) as [xt|] eqn:Et; [|exists false; split; [reflexivity|discriminate]].
  assert (comp_of (instances g) t = Some (i_component xt)) as Ct by (apply comp_lookup; eauto).
  destruct (c_comp g C _ _ Ct) as (et & Ect). rewrite Ect.
  eexists. split; [reflexivity|]. intros B. apply andb_prop in B. destruct B as (B & _). apply andb_prop in B. destruct B as (B & B3).
  apply andb_prop in B. destruct B as (B1 & B2). apply Nat.ltb_lt in B1. apply negb_true_iff, existsb_out in B2. split; [exact D|].
  exists xs, xt, (e_component es), (e_component et). split; [reflexivity|]. split; [reflexivity|].
  unfold made_of. rewrite Cs, Ct, Ecs, Ect. cbn. repeat (split; [assumption || reflexivity|]). destruct oe; [now apply Nat.ltb_lt|exact I].
Qed.

Lemma connect_inv fits s oe t i g : Inv g -> connect fits s oe t i g <> Panicked /\
  (forall g', connect fits s oe t i g = Done g' -> Inv g' /\
     exists m, elookup (s, t) (edges g') = Some m /\ In (i, oe) m /\
       (forall i' oe', In (i', oe') m -> (i', oe') = (i, oe) \/ exists m0, elookup (s, t) (edges g) = Some m0 /\ In (i', oe') m0) /\
       (forall m0, elookup (s, t) (edges g) = Some m0 -> incl m0 m) /\
       (forall s' t', (s', t') <> (s, t) -> elookup (s', t') (edges g') = elookup (s', t') (edges g)) /\
       (forall t', t' <> t -> nlookup t' (instances g') = nlookup t' (instances g)) /\ components g' = components g).
Proof.
  intros Iv. destruct (validate_spec fits s oe t i g Iv) as (b & Vb & Sb). unfold connect. rewrite Vb.
  destruct b; [|split; [discriminate|intros; discriminate]]. destruct (Sb eq_refl) as (D & xs & xt & sc & tc & Es & Et & Ms & Mt & Li & Ni & Oe). clear Sb Vb.
  destruct Iv as (V & C). destruct V as [V1 V2 V3 V4 V5 V6 V7]. destruct C as [C1 C2 C3 C4 C5 C6 C7 C8].
  rewrite Et. destruct (existsb (Nat.eqb i) (i_connected xt)) eqn:Xi; [apply existsb_In in Xi; contradiction|].
  set (xt' := Instance (i_component xt) (i_connected xt ++ [i])).
  assert (forall j, comp_of (ninsert t xt' (instances g)) j = comp_of (instances g) j) as CO.
  { intros j. unfold comp_of. rewrite lookup_insert. destruct (Nat.eq_dec j t) as [->|]; [|reflexivity]. now rewrite Et. }
  assert (NoDup (i_connected xt')) as Nc.
  { cbn. apply (Permutation_NoDup (l := i :: i_connected xt)); [apply Permutation_cons_append|]. constructor; [exact Ni|]. now apply (V6 t xt). }
  (* both cases at once: the new edge map *)
  assert (forall m ns', (forall s0 t0, elookup (s0, t0) (edges g) = Some m -> True) ->
     NoDup ns' -> (forall n, In n ns' <-> In n (nodes g) \/ n = s \/ n = t) -> NoDup (map fst m) ->
     (forall p, In p m <-> p = (i, oe) \/ exists m0, elookup (s, t) (edges g) = Some m0 /\ In p m0) ->
     Inv (Graph (names g) (components g) (ninsert t xt' (instances g)) ns' (insert pair_dec (s, t) m (edges g)) (next_component g) (next_instance g))) as Main.
  { intros m ns' _ Nn An Nm Am.
    assert (forall s0 t0, elookup (s0, t0) (insert pair_dec (s, t) m (edges g)) = if pair_dec (s0, t0) (s, t) then Some m else elookup (s0, t0) (edges g)) as EL by (intros; apply lookup_insert).
    assert (forall j, In j (map fst m) <-> j = i \/ exists m0, elookup (s, t) (edges g) = Some m0 /\ In j (map fst m0)) as Km.
    { intros j. rewrite in_map_iff. split.
      - intros ((j' & o) & <- & I). apply Am in I. destruct I as [[= -> ->]|(m0 & E & I)]; [now left|right]. exists m0. split; [exact E|]. apply in_map_iff. now exists (j', o).
      - intros [->|(m0 & E & I)]; [exists (i, oe); split; [reflexivity|]; apply Am; now left|]. apply in_map_iff in I. destruct I as (p & <- & I). exists p. split; [reflexivity|]. apply Am. right. eauto. }
    assert (forall s0 m0, elookup (s0, t) (edges g) = Some m0 -> ~ In i (map fst m0)) as Fr.
    { intros s0 m0 E I. apply Ni. apply (V6 t xt Et). eauto. }
    split.
    - cbn [instances nodes edges]. split.
      + now apply insert_nodup.
      + now apply insert_nodup.
      + exact Nn.
      + intros n I. rewrite lookup_insert. destruct (Nat.eq_dec n t) as [->|Dn]; [eauto|]. apply An in I. destruct I as [I|[->| ->]]; [now apply V4|eauto|eauto].
      + intros s0 t0 m0. rewrite EL. destruct (pair_dec (s0, t0) (s, t)) as [[= -> ->]|Dp].
        * intros [= <-]. split; [exact D|]. split; [apply An; auto|]. split; [apply An; auto|]. split; [|exact Nm].
          intros ->. assert (In (i, oe) []) as [] by (apply Am; now left).
        * intros E. destruct (V5 _ _ _ E) as (W1 & W2 & W3 & W4). split; [exact W1|]. split; [apply An; auto|]. split; [apply An; auto|exact W4].
      + intros t0 x0. rewrite lookup_insert. destruct (Nat.eq_dec t0 t) as [->|Dt].
        * intros [= <-]. split; [exact Nc|]. intros j. cbn. rewrite in_app_iff. cbn. destruct (V6 t xt Et) as (_ & B). rewrite B. split.
          -- intros [(s0 & m0 & E & I)|[<-|[]]].
             ++ exists s0. rewrite EL. destruct (pair_dec (s0, t) (s, t)) as [[= ->]|]; [|eauto]. exists m. split; [reflexivity|]. apply Km. right. eauto.
             ++ exists s, m. rewrite EL. destruct (pair_dec (s, t) (s, t)); [|congruence]. split; [reflexivity|]. apply Km. now left.
          -- intros (s0 & m0 & E & I). rewrite EL in E. destruct (pair_dec (s0, t) (s, t)) as [[= ->]|]; [|left; eauto].
             injection E as <-. apply Km in I. destruct I as [->|(m0 & E & I)]; [right; now left|left; eauto].
        * intros E. destruct (V6 t0 x0 E) as (N & B). split; [exact N|]. intros j. rewrite B. split; intros (s0 & m0 & E0 & I); exists s0, m0; (split; [|exact I]).
          -- rewrite EL. destruct (pair_dec (s0, t0) (s, t)) as [[= _ ->]|]; [congruence|exact E0].
          -- rewrite EL in E0. destruct (pair_dec (s0, t0) (s, t)) as [[= _ ->]|]; [congruence|exact E0].
      + intros s1 s2 t0 m1 m2 j E1 I1 E2 I2. rewrite EL in E1, E2.
        destruct (pair_dec (s1, t0) (s, t)) as [e1|D1], (pair_dec (s2, t0) (s, t)) as [e2|D2].
        * injection e1 as -> ->. now injection e2 as ->.
        * injection e1 as -> ->. injection E1 as <-. apply Km in I1. destruct I1 as [->|(m0 & E0 & I0)]; [destruct (Fr _ _ E2 I2)|]. exact (V7 _ _ _ _ _ _ E0 I0 E2 I2).
        * injection e2 as -> ->. injection E2 as <-. apply Km in I2. destruct I2 as [->|(m0 & E0 & I0)]; [destruct (Fr _ _ E1 I1)|]. exact (V7 _ _ _ _ _ _ E1 I1 E0 I0).
        * exact (V7 _ _ _ _ _ _ E1 I1 E2 I2).
    - assert (forall j, made_of (ninsert t xt' (instances g)) (components g) j = made_of (instances g) (components g) j) as MO by (intros j; unfold made_of; now rewrite CO).
      split; cbn [names components instances edges next_component next_instance]; try assumption.
      + intros c e E. destruct (C4 c e E) as (N & A). split; [exact N|]. intros j. now rewrite CO.
      + intros j c. rewrite CO. apply C5.
      + intros j c. rewrite CO. apply C7.
      + intros s0 t0 m0 i0 oe0. rewrite EL. rewrite !MO. destruct (pair_dec (s0, t0) (s, t)) as [[= -> ->]|]; [|apply C8].
        intros [= <-] I. apply Am in I. destruct I as [[= -> ->]|(m0 & E0 & I0)]; [exists sc, tc; auto|exact (C8 _ _ _ _ _ E0 I0)]. }
  destruct (elookup (s, t) (edges g)) as [map0|] eqn:Em.
  - assert (nlookup i map0 = None) as Nm0.
    { destruct (nlookup i map0) as [o|] eqn:E; [|reflexivity]. exfalso. apply Ni. apply (V6 t xt Et). exists s, map0. split; [exact Em|].
      apply (lookup_key Nat.eq_dec). eauto. }
    rewrite Nm0. split; [discriminate|]. intros g' [= <-].
    assert (NoDup (map fst map0)) as N0 by apply (V5 _ _ _ Em).
    assert (NoDup (map fst (ninsert i oe map0))) as N1 by now apply insert_nodup.
    assert (forall p, In p (ninsert i oe map0) <-> p = (i, oe) \/ In p map0) as Am.
    { intros (j & o). rewrite <- (lookup_iff Nat.eq_dec j _ o N1), lookup_insert, <- (lookup_iff Nat.eq_dec j _ o N0).
      destruct (Nat.eq_dec j i) as [->|Dj]; [|intuition congruence]. rewrite Nm0. intuition congruence. }
    split.
    + apply Main; auto; [intros n; split; [now left|]; intros [H|[->| ->]]; [exact H|apply (V5 _ _ _ Em)|apply (V5 _ _ _ Em)]|].
      intros p. rewrite Am. split; (intros [H|H]; [now left|right]); [eauto|destruct H as (m0 & [= <-] & H); exact H].
    + exists (ninsert i oe map0). cbn [edges instances components]. rewrite lookup_insert. destruct (pair_dec (s, t) (s, t)); [|congruence].
      split; [reflexivity|]. split; [apply Am; now left|]. split; [|split; [|split; [|split; [|reflexivity]]]].
      * intros i' oe' I. apply Am in I. destruct I as [I|I]; [now left|right; eauto].
      * intros m0 [= <-] p I. apply Am. now right.
      * intros s' t' D'. rewrite lookup_insert. destruct (pair_dec (s', t') (s, t)); [congruence|reflexivity].
      * intros t' D'. rewrite lookup_insert. destruct (Nat.eq_dec t' t); [congruence|reflexivity].
  - split; [discriminate|]. intros g' [= <-]. destruct (add_node_spec s (nodes g) V3) as (N1 & A1). destruct (add_node_spec t _ N1) as (N2 & A2). split.
    + apply Main; auto.
      * intros n. rewrite A2, A1. tauto.
      * cbn. constructor; [intros []|constructor].
      * intros p. cbn. split; [intros [<-|[]]; now left|]. intros [->|(m0 & E & _)]; [now left|discriminate].
    + exists [(i, oe)]. cbn [edges instances components]. rewrite lookup_insert. destruct (pair_dec (s, t) (s, t)); [|congruence].
      split; [reflexivity|]. split; [now left|]. split; [|split; [|split; [|split; [|reflexivity]]]].
      * intros i' oe' [[= <- <-]|[]]. now left.
      * discriminate.
      * intros s' t' D'. rewrite lookup_insert. destruct (pair_dec (s', t') (s, t)); [congruence|reflexivity].
      * intros t' D'. rewrite lookup_insert. destruct (Nat.eq_dec t' t); [congruence|reflexivity].
Qed.

Lemma disconnect_edges s t i g g' : Inv g -> disconnect s t i g = Done g' ->
  forall s' t' m', elookup (s', t') (edges g') = Some m' <->
    m' <> [] /\ exists m, elookup (s', t') (edges g) = Some m /\ m' = if pair_dec (s', t') (s, t) then nremove i m else m.
Proof.
  intros (V & _) H. destruct V as [V1 V2 V3 V4 V5 V6 V7]. unfold disconnect in H.
  destruct (nlookup s (instances g)) as [xs|]; [|discriminate]. destruct (nlookup t (instances g)) as [xt|]; [|discriminate].
  injection H as <-. cbn [edges]. intros s' t' m'.
  assert (forall m, elookup (s', t') (edges g) = Some m -> m <> []) as Ne by (intros m E; apply (V5 _ _ _ E)).
  destruct (elookup (s, t) (edges g)) as [map0|] eqn:Em.
  - destruct (nremove i map0) as [|p r] eqn:R.
    + rewrite lookup_remove by exact V2. destruct (pair_dec (s', t') (s, t)) as [[= -> ->]|D].
      * split; [discriminate|]. intros (N & m & E & ->). rewrite Em in E. injection E as <-. congruence.
      * split; [intros E; split; [now apply Ne|eauto]|]. intros (_ & m & E & ->). exact E.
    + rewrite lookup_insert. destruct (pair_dec (s', t') (s, t)) as [[= -> ->]|D].
      * rewrite Em. split; [intros [= <-]; split; [discriminate|]; exists map0; now split|]. intros (_ & m & [= <-] & ->). congruence.
      * split; [intros E; split; [now apply Ne|eauto]|]. intros (_ & m & E & ->). exact E.
  - destruct (pair_dec (s', t') (s, t)) as [[= -> ->]|D].
    + rewrite Em. split; [discriminate|]. intros (_ & m & E & _). discriminate.
    + split; [intros E; split; [now apply Ne|eauto]|]. intros (_ & m & E & ->). exact E.
Qed.
Lemma nremove_keys i (m : edge_map) : NoDup (map fst m) -> NoDup (map fst (nremove i m)) /\
  (forall p, In p (nremove i m) <-> In p m /\ fst p <> i) /\ (forall j, In j (map fst (nremove i m)) <-> In j (map fst m) /\ j <> i).
Proof.
  intros N. assert (NoDup (map fst (nremove i m))) as N' by now apply remove_nodup.
  assert (forall p, In p (nremove i m) <-> In p m /\ fst p <> i) as A.
  { intros (j & o). rewrite <- (lookup_iff Nat.eq_dec j _ o N'). unfold nremove. rewrite lookup_remove by exact N. cbn.
    destruct (Nat.eq_dec j i) as [->|D]; [|rewrite (lookup_iff Nat.eq_dec j _ o N); tauto]. split; [discriminate|tauto]. }
  split; [exact N'|]. split; [exact A|]. intros j. rewrite !in_map_iff. split.
  - intros (p & <- & I). apply A in I. split; [exists p; tauto|tauto].
  - intros ((p & <- & I) & D). exists p. split; [reflexivity|]. now apply A.
Qed.

Lemma disconnect_inv s t i g : Inv g -> disconnect s t i g <> Panicked /\
  (proper (Disconnect s t i) g -> forall g', disconnect s t i g = Done g' -> Inv g').
Proof.
  intros Iv. split.
  { unfold disconnect. destruct (nlookup s (instances g)); [|discriminate]. destruct (nlookup t (instances g)); discriminate. }
  intros P g' H. pose proof (disconnect_edges s t i g g' Iv H) as DE.
  destruct Iv as (V & C). destruct V as [V1 V2 V3 V4 V5 V6 V7]. destruct C as [C1 C2 C3 C4 C5 C6 C7 C8]. cbn in P.
  unfold disconnect in H. destruct (nlookup s (instances g)) as [xs|] eqn:Es; [|discriminate]. destruct (nlookup t (instances g)) as [xt|] eqn:Et; [|discriminate].
  assert (NoDup (map fst (edges g'))) as NE.
  { injection H as <-. cbn [edges]. destruct (elookup (s, t) (edges g)) as [m0|]; [|exact V2]. destruct (nremove i m0); [now apply remove_nodup|now apply insert_nodup]. }
  assert (names g' = names g /\ components g' = components g /\ nodes g' = nodes g /\ next_component g' = next_component g /\ next_instance g' = next_instance g /\
          instances g' = ninsert t (disconnected i xt) (instances g)) as (Hn & Hc & Hno & Hnc & Hni & Hi) by (injection H as <-; repeat split; reflexivity).
  clear H. destruct (V6 t xt Et) as (Nc & Bc). destruct (remove_elem i (i_connected xt) Nc) as (Nc' & Ac').
  assert (forall j, comp_of (instances g') j = comp_of (instances g) j) as CO.
  { intros j. rewrite Hi. unfold comp_of. rewrite lookup_insert. destruct (Nat.eq_dec j t) as [->|]; [|reflexivity]. now rewrite Et. }
  split.
  - split.
    + rewrite Hi. now apply insert_nodup.
    + exact NE.
    + rewrite Hno. exact V3.
    + intros n I. rewrite Hno in I. rewrite Hi, lookup_insert. destruct (Nat.eq_dec n t); [eauto|]. now apply V4.
    + intros s0 t0 m0 E. apply DE in E. destruct E as (N0 & m & E & ->). destruct (V5 _ _ _ E) as (W1 & W2 & W3 & _ & W5). rewrite Hno.
      repeat (split; [assumption|]). destruct (pair_dec (s0, t0) (s, t)); [|exact W5]. now apply nremove_keys.
    + intros t0 x0 E. rewrite Hi, lookup_insert in E. destruct (Nat.eq_dec t0 t) as [->|Dt].
      * injection E as <-. cbn. split; [exact Nc'|]. intros j. rewrite Ac', Bc. split.
        -- intros ((s0 & m0 & E0 & I0) & Dj). destruct (pair_dec (s0, t) (s, t)) as [[= ->]|Dp].
           ++ exists s, (nremove i m0). assert (In j (map fst (nremove i m0))) as Ij by (apply nremove_keys; [apply (V5 _ _ _ E0)|now split]).
              split; [|exact Ij]. apply DE. split; [intros Z; rewrite Z in Ij; destruct Ij|]. exists m0. split; [exact E0|]. destruct (pair_dec (s, t) (s, t)); [reflexivity|congruence].
           ++ exists s0, m0. split; [|exact I0]. apply DE. split; [apply (V5 _ _ _ E0)|]. exists m0. split; [exact E0|]. destruct (pair_dec (s0, t) (s, t)); [congruence|reflexivity].
        -- intros (s0 & m1 & E1 & I1). apply DE in E1. destruct E1 as (_ & m & E & ->). destruct (pair_dec (s0, t) (s, t)) as [[= ->]|Dp].
           ++ apply nremove_keys in I1; [|apply (V5 _ _ _ E)]. split; [exists s, m; tauto|tauto].
           ++ split; [eauto|]. intros ->. apply Dp. f_equal. exact (P _ _ E I1).
      * destruct (V6 t0 x0 E) as (N & B). split; [exact N|]. intros j. rewrite B. split.
        -- intros (s0 & m0 & E0 & I0). exists s0, m0. split; [|exact I0]. apply DE. split; [apply (V5 _ _ _ E0)|]. exists m0. split; [exact E0|].
           destruct (pair_dec (s0, t0) (s, t)) as [[= _ ->]|]; [congruence|reflexivity].
        -- intros (s0 & m1 & E1 & I1). apply DE in E1. destruct E1 as (_ & m & E0 & ->). destruct (pair_dec (s0, t0) (s, t)) as [[= _ ->]|]; [congruence|eauto].
    + intros s1 s2 t0 m1 m2 j E1 I1 E2 I2. apply DE in E1, E2. destruct E1 as (_ & n1 & E1 & ->), E2 as (_ & n2 & E2 & ->).
      assert (In j (map fst n1)) as J1 by (destruct (pair_dec (s1, t0) (s, t)); [apply nremove_keys in I1; [tauto|apply (V5 _ _ _ E1)]|exact I1]).
      assert (In j (map fst n2)) as J2 by (destruct (pair_dec (s2, t0) (s, t)); [apply nremove_keys in I2; [tauto|apply (V5 _ _ _ E2)]|exact I2]).
      exact (V7 _ _ _ _ _ _ E1 J1 E2 J2).
  - assert (forall j, made_of (instances g') (components g') j = made_of (instances g) (components g) j) as MO by (intros j; unfold made_of; now rewrite CO, Hc).
    split; rewrite ?Hn, ?Hc, ?Hnc, ?Hni; try assumption.
    + intros c e E. destruct (C4 c e E) as (N & A). split; [exact N|]. intros j. now rewrite CO.
    + intros j c. rewrite CO. apply C5.
    + intros j c. rewrite CO. apply C7.
    + intros s0 t0 m0 i0 oe0 E I. apply DE in E. destruct E as (_ & m & E & ->). rewrite <- Hc, !MO, ?Hc.
      apply (C8 s0 t0 m i0 oe0 E). destruct (pair_dec (s0, t0) (s, t)); [|exact I]. apply nremove_keys in I; [tauto|apply (V5 _ _ _ E)].
Qed.

Lemma step_inv e g : Inv g -> step e g <> Panicked /\ (proper e g -> forall g', step e g = Done g' -> Inv g').
Proof.
  intros V. destruct e; cbn [step].
  - destruct (add_component_inv skipped c g V). split; auto.
  - destruct (remove_component_inv id g V). split; auto.
  - destruct (instantiate_inv skipped id g V). split; auto.
  - destruct (remove_instance_inv id g V). split; auto.
  - destruct (connect_inv fits source export target import g V) as (A & B). split; [exact A|]. intros _ g' H. now apply B.
  - now apply disconnect_inv.
Qed.
