(** C37: the dependency order of WIT items. *)
From Coq Require Import ZArith Lia List Bool Arith Relations Permutation.
From Verif Require Import Base.Prelude Names.Kebab Graph.Toposort Graph.Spec Graph.ToposortIndex Graph.ToposortProofs.
Import ListNotations.
Open Scope nat_scope.

(** Item [a] comes before item [b] in the source. *)
Definition source_before (g : graph) (a b : str) : Prop := exists x y z, map fst g = x ++ a :: y ++ b :: z.

Lemma find_none_missing g : List.find (missing g) (flat_map snd g) = None <-> (forall a b, depends g a b -> defined g b).
Proof.
  split.
  - intros F a b (es & I & Ib). apply in_map_iff in Ib. destruct Ib as (e & <- & Ie).
    assert (In e (flat_map snd g)) as Ig by (apply in_flat_map; exists (a, es); now split).
    pose proof (find_none _ _ F e Ig) as M. unfold missing in M. destruct (get_full g (snd e)) as [j|] eqn:E; [|discriminate].
    apply get_full_some in E. eapply nth_error_In, E.
  - intros A. destruct (List.find (missing g) (flat_map snd g)) as [e|] eqn:F; [exfalso|reflexivity].
    apply find_some in F. destruct F as (I & M). apply in_flat_map in I. destruct I as ((a & es) & I & Ie).
    unfold missing in M. destruct (get_full g (snd e)) as [|] eqn:E; [discriminate|]. apply get_full_none in E. apply E.
    apply (A a). exists es. split; [exact I|]. now apply in_map.
Qed.
Lemma in_names g ord i : NoDup (map fst g) -> (forall k, In k ord -> k < List.length g) -> i < List.length g ->
  (In (name_of g i) (map (name_of g) ord) <-> In i ord).
Proof.
  intros N B L. split; [|apply in_map]. intros I. apply in_map_iff in I. destruct I as (k & E & Ik).
  pose proof (get_full_name g i N L) as Hi. rewrite <- E, (get_full_name g k N (B k Ik)) in Hi. congruence.
Qed.
Lemma defined_name g a : defined g a -> exists i, i < List.length g /\ a = name_of g i.
Proof.
  intros D. destruct (get_full g a) as [i|] eqn:E; [|apply get_full_none in E; now destruct E].
  exists i. split; [eapply get_full_lt, E|now apply get_full_name_of].
Qed.
Lemma depends_defined g a b : depends g a b -> defined g a.
Proof. intros (es & I & _). apply in_map_iff. now exists (a, es). Qed.
Lemma depends_index g G i j : NoDup (map fst g) -> Forall2 (fun e ts => resolved g (snd e) ts) g G ->
  i < List.length g -> j < List.length g -> (depends g (name_of g i) (name_of g j) <-> In j (tg G i)).
Proof.
  intros N F Li Lj. rewrite (resolved_edges g G i F N Li). rewrite (get_full_name g j N Lj). split.
  - intros (k & [= <-] & I). exact I.
  - intros I. now exists j.
Qed.
Lemma seq_perm n ord : NoDup ord -> (forall i, In i ord -> i < n) -> List.length ord = n -> Permutation ord (seq 0 n).
Proof.
  intros N B L. apply NoDup_Permutation; [exact N|apply seq_NoDup|]. intros x. split; [intros I; apply in_seq; specialize (B x I); lia|].
  apply (NoDup_length_incl (l := ord) (l' := seq 0 n)); [exact N|rewrite seq_length; lia|]. intros i I. apply in_seq. specialize (B i I). lia.
Qed.
Lemma names_seq g : map (name_of g) (seq 0 (List.length g)) = map fst g.
Proof.
  unfold name_of. rewrite <- (map_length fst g). generalize (map fst g). intros l. induction l as [|x l IH]; [reflexivity|].
  cbn [List.length seq map nth]. f_equal. rewrite <- seq_shift, map_map. exact IH.
Qed.
Lemma map_split {A B} (f : A -> B) l x y z : map f l = x ++ y :: z -> exists x' y' z', l = x' ++ y' :: z' /\ x = map f x' /\ y = f y' /\ z = map f z'.
Proof.
  revert l. induction x as [|a x IH]; intros [|b l] E; try discriminate; cbn in E.
  - injection E as <- <-. exists [], b, l. auto.
  - injection E as <- E. destruct (IH l E) as (x' & y' & z' & -> & -> & -> & ->). exists (b :: x'), y', z'. auto.
Qed.

(** What an order that comes out is: all items, each once, each after its
    dependencies; and, of the items whose dependencies are out, always the one
    which is first in the source. *)
Theorem C37_sorted g order : NoDup (map fst g) -> toposort g = Sorted order ->
  Permutation order (map fst g) /\ after_dependencies g order /\
  (forall before a rest, order = before ++ a :: rest ->
     forall b, defined g b -> ~ In b before -> ready g before b -> b = a \/ source_before g a b).
Proof.
  intros N T. destruct (toposort_spec g N) as [(sp & nm & _ & E)|(FN & G & ord & LG & FG & No & Bo & Gr & [(Lo & E)|(_ & _ & sp & i & j & _ & _ & _ & _ & _ & _ & E)])];
    rewrite E in T; try discriminate. injection T as <-.
  pose proof (proj1 (find_none_missing g) FN) as Def.
  split; [|split].
  - rewrite <- names_seq. apply Permutation_map. now apply seq_perm.
  - intros before a rest Es b D. apply map_split in Es. destruct Es as (bi & i & ri & Eo & -> & -> & ->).
    destruct (Gr bi i ri Eo) as (Di & _).
    assert (i < List.length g) as Li by (apply Bo; rewrite Eo; apply in_or_app; right; now left).
    destruct (defined_name g b (Def _ _ D)) as (j & Lj & ->). apply in_map, Di. now apply (depends_index g G i j N FG Li Lj).
  - intros before a rest Es b Db Nb Rb. apply map_split in Es. destruct Es as (bi & i & ri & Eo & -> & -> & ->).
    destruct (Gr bi i ri Eo) as (_ & Least).
    assert (i < List.length g) as Li by (apply Bo; rewrite Eo; apply in_or_app; right; now left).
    assert (forall k, In k bi -> k < List.length g) as Bb by (intros k I; apply Bo; rewrite Eo; apply in_or_app; now left).
    destruct (defined_name g b Db) as (j & Lj & ->).
    assert (i <= j) as Le.
    { apply Least; [lia|intros I; apply Nb; now apply in_map|]. intros t It.
      assert (t < List.length g) as Lt by (eapply targets_lt; [exact FG|exact It]).
      apply (in_names g bi t N Bb Lt), Rb. now apply (depends_index g G j t N FG Lj Lt). }
    destruct (Nat.eq_dec i j) as [->|Ne]; [now left|right].
    destruct (nth_split (map fst g) [] (n := i)) as (x & r & Ex & Lx); [rewrite map_length; lia|].
    assert (nth (j - S i) r [] = name_of g j) as Hr.
    { unfold name_of. rewrite Ex, app_nth2 by lia. rewrite Lx. replace (j - i) with (S (j - S i)) by lia. reflexivity. }
    assert (j - S i < List.length r) as Lr.
    { apply (f_equal (@List.length _)) in Ex. rewrite map_length, app_length in Ex. cbn in Ex. lia. }
    destruct (nth_split r [] Lr) as (y & z & Ey & _). rewrite Hr in Ey. exists x, y, z. rewrite Ex at 1. now rewrite <- Ey.
Qed.
Print Assumptions C37_sorted.

(** A cycle would need an item before itself. *)
Lemma sorted_acyclic g order : NoDup order -> Permutation order (map fst g) -> after_dependencies g order -> ~ cyclic g.
Proof.
  intros No P A (a & C).
  assert (forall x y, clos_trans str (depends g) x y -> exists before rest, order = before ++ x :: rest /\ In y before) as K.
  { intros x y T. apply clos_trans_t1n in T. induction T as [x y D|x y z D T IH].
    - pose proof (depends_defined _ _ _ D) as Dx. apply (Permutation_in x (Permutation_sym P)) in Dx.
      apply in_split in Dx. destruct Dx as (before & rest & E). exists before, rest. split; [exact E|]. now apply (A before x rest E).
    - pose proof (depends_defined _ _ _ D) as Dx. apply (Permutation_in x (Permutation_sym P)) in Dx.
      apply in_split in Dx. destruct Dx as (before & rest & E). exists before, rest. split; [exact E|].
      pose proof (A before x rest E y D) as Iy. destruct IH as (b2 & r2 & E2 & Iz).
      apply in_split in Iy. destruct Iy as (u & v & ->). rewrite <- app_assoc in E. cbn in E.
      assert (u = b2) as ->.
      { rewrite E in E2. rewrite E in No. clear - E2 No. revert b2 E2. induction u as [|w u IH]; intros [|w' b2] E2; cbn in *.
        - reflexivity.
        - injection E2 as -> E2. exfalso. inversion No as [|? ? N1 N2]; subst. apply N1. rewrite E2. apply in_or_app. right. now left.
        - injection E2 as -> E2. exfalso. inversion No as [|? ? N1 N2]; subst. apply N1. apply in_or_app. right. now left.
        - injection E2 as -> E2. f_equal. inversion No as [|? ? N1 N2]; subst. now apply IH. }
      apply in_or_app. now left. }
  destruct (K a a C) as (before & rest & E & I). rewrite E in No. apply NoDup_remove_2 in No. apply No, in_or_app. now left.
Qed.

(** Which of the three answers comes out; there is no fourth one. *)
Theorem C37_answers g : NoDup (map fst g) ->
  ((exists span name, toposort g = ItemNotFound span name) <-> (exists a b, depends g a b /\ ~ defined g b)) /\
  ((exists order, toposort g = Sorted order) <-> (forall a b, depends g a b -> defined g b) /\ ~ cyclic g) /\
  ((exists span name, toposort g = TypeCycle span name) <-> (forall a b, depends g a b -> defined g b) /\ cyclic g) /\
  toposort g <> Panicked /\ toposort g <> Fuel.
Proof.
  intros N. destruct (toposort_spec g N) as [(sp & nm & F & E)|(FN & G & ord & LG & FG & No & Bo & Gr & [(Lo & E)|(Lo & Next & sp & i & j & Li & Lj & Ni & Nj & Ie & It & E)])].
  - rewrite E. apply find_some in F. destruct F as (I & M). apply in_flat_map in I. destruct I as ((a & es) & I & Ie).
    unfold missing in M. cbn in M. destruct (get_full g nm) eqn:Eg; [discriminate|]. apply get_full_none in Eg.
    assert (depends g a nm) as D by (exists es; split; [exact I|apply in_map_iff; exists (sp, nm); now split]).
    split; [|split; [|split; [|split; discriminate]]].
    + split; [|intros _; now exists sp, nm]. intros _. now exists a, nm.
    + split; [intros (o & X); discriminate|]. intros (A & _). destruct (Eg (A _ _ D)).
    + split; [intros (? & ? & X); discriminate|]. intros (A & _). destruct (Eg (A _ _ D)).
  - destruct (C37_sorted g _ N E) as (P & AD & _). rewrite E.
    pose proof (proj1 (find_none_missing g) FN) as Def.
    assert (~ cyclic g) as NC by (apply (sorted_acyclic g _ (Permutation_NoDup (Permutation_sym P) N) P AD)).
    split; [|split; [|split; [|split; discriminate]]].
    + split; [intros (? & ? & X); discriminate|]. intros (a & b & D & U). destruct (U (Def _ _ D)).
    + split; [intros _; now split|]. intros _. now exists (map (name_of g) ord).
    + split; [intros (? & ? & X); discriminate|]. intros (_ & C). destruct (NC C).
  - rewrite E. pose proof (proj1 (find_none_missing g) FN) as Def.
    assert (cyclic g) as C.
    { destruct (reach_cycle (fun x y => In y (tg G x) /\ x < List.length g /\ y < List.length g) (fun x => x < List.length g /\ ~ In x ord) (List.length g)) with (x := i) as (c & _ & Cc).
      - tauto.
      - intros x (Lx & Nx). destruct (Next x Lx Nx) as (t & I & Lt & Nt). exists t. auto.
      - now split.
      - exists (name_of g c). clear - Cc N FG. revert Cc. generalize c at 1 3. intros d Cc. induction Cc as [x y (I & Lx & Ly)|x y z _ IH1 _ IH2].
        + apply t_step. now apply (depends_index g G x y N FG Lx Ly).
        + eapply t_trans; eassumption. }
    split; [|split; [|split; [|split; discriminate]]].
    + split; [intros (? & ? & X); discriminate|]. intros (a & b & D & U). destruct (U (Def _ _ D)).
    + split; [intros (o & X); discriminate|]. intros (_ & NC). destruct (NC C).
    + split; [intros _; now split|]. intros _. now exists sp, (name_of g j).
Qed.
Print Assumptions C37_answers.

(** What an error points at: the first dependency of the source which is not
    there; or a dependency, with its place, of which both ends lead to a cycle. *)
Theorem C37_reported g span name : NoDup (map fst g) ->
  (toposort g = ItemNotFound span name ->
     exists before after, flat_map snd g = before ++ (span, name) :: after /\ ~ defined g name /\ Forall (fun e => defined g (snd e)) before) /\
  (toposort g = TypeCycle span name ->
     exists a es c, In (a, es) g /\ In (span, name) es /\ clos_refl_trans str (depends g) name c /\ clos_trans str (depends g) c c).
Proof.
  intros N. destruct (toposort_spec g N) as [(sp & nm & F & E)|(FN & G & ord & LG & FG & No & Bo & Gr & [(Lo & E)|(Lo & Next & sp & i & j & Li & Lj & Ni & Nj & (es & Eg & Ie) & It & E)])];
    rewrite E; (split; [|]; try discriminate).
  - intros [= <- <-]. clear E. revert F. generalize (flat_map snd g). induction l as [|e l IH]; [discriminate|]. cbn.
    destruct (missing g e) eqn:M.
    + intros [= ->]. exists [], l. split; [reflexivity|]. split; [|constructor]. unfold missing in M. cbn in M.
      destruct (get_full g nm) eqn:Eg; [discriminate|]. now apply get_full_none.
    + intros F. destruct (IH F) as (b & a & -> & Nd & Fb). exists (e :: b), a. split; [reflexivity|]. split; [exact Nd|].
      constructor; [|exact Fb]. unfold missing in M. destruct (get_full g (snd e)) eqn:Eg; [|discriminate].
      apply get_full_some in Eg. eapply nth_error_In, Eg.
  - intros [= <- <-].
    destruct (reach_cycle (fun x y => In y (tg G x) /\ x < List.length g /\ y < List.length g) (fun x => x < List.length g /\ ~ In x ord) (List.length g)) with (x := j) as (c & Rc & Cc).
    + tauto.
    + intros x (Lx & Nx). destruct (Next x Lx Nx) as (t & I & Lt & Nt). exists t. auto.
    + now split.
    + exists (name_of g i), es, (name_of g c). split; [eapply nth_error_In, Eg|]. split; [exact Ie|]. split.
      * clear - Rc N FG. induction Rc as [x y (I & Lx & Ly)|x|x y z _ IH1 _ IH2].
        -- apply rt_step. now apply (depends_index g G x y N FG Lx Ly).
        -- apply rt_refl.
        -- eapply rt_trans; eassumption.
      * clear - Cc N FG. revert Cc. generalize c at 1 3. intros d Cc. induction Cc as [x y (I & Lx & Ly)|x y z _ IH1 _ IH2].
        -- apply t_step. now apply (depends_index g G x y N FG Lx Ly).
        -- eapply t_trans; eassumption.
Qed.
Print Assumptions C37_reported.

(** The order is a function of the items in source order and of which depends on
    which: listing the dependencies in another order, or twice, changes nothing. *)
Theorem C37_stable g g' order : NoDup (map fst g) -> map fst g = map fst g' ->
  (forall a b, depends g a b <-> depends g' a b) -> toposort g = Sorted order -> toposort g' = Sorted order.
Proof.
  intros N K Same T.
  assert (exists order', toposort g' = Sorted order') as (order' & T').
  { apply C37_answers; [now rewrite <- K|]. destruct (proj1 (proj1 (proj2 (C37_answers g N))) (ex_intro _ order T)) as (D & A).
    unfold defined, cyclic in *. rewrite <- K. split.
    - intros a b H. apply (D a). now apply Same.
    - intros (a & C). apply A. exists a. clear - C Same. revert C. generalize a at 1 3. intros b C.
      induction C as [x y H|x y z _ IH1 _ IH2]; [apply t_step; now apply Same|eapply t_trans; eassumption]. }
  rewrite T'. f_equal.
  assert (NoDup (map fst g')) as N' by (rewrite <- K; exact N).
  assert (List.length g = List.length g') as L by (rewrite <- (map_length fst g), K; apply map_length).
  assert (forall i, name_of g i = name_of g' i) as Nm by (intros i; unfold name_of; now rewrite K).
  destruct (toposort_spec g N) as [(? & ? & _ & E)|(_ & G & ord & LG & FG & No & Bo & Gr & [(Lo & E)|(_ & _ & ? & ? & ? & _ & _ & _ & _ & _ & _ & E)])]; rewrite E in T; try discriminate.
  destruct (toposort_spec g' N') as [(? & ? & _ & E')|(_ & G' & ord' & LG' & FG' & No' & Bo' & Gr' & [(Lo' & E')|(_ & _ & ? & ? & ? & _ & _ & _ & _ & _ & _ & E')])]; rewrite E' in T'; try discriminate.
  injection T as <-. injection T' as <-.
  assert (ord' = ord) as ->; [|now apply map_ext].
  symmetry. apply (greedy_unique G G') with (before := []); cbn [app]; try assumption; try lia.
  - intros i t. destruct (Nat.lt_ge_cases i (List.length g)) as [Li|Li]; [|unfold tg; rewrite !nth_overflow by lia; reflexivity].
    split; intros I.
    + assert (t < List.length g) as Lt by (eapply targets_lt; [exact FG|exact I]).
      apply (depends_index g' G' i t N' FG'); try lia. rewrite <- !Nm. apply Same. now apply (depends_index g G i t N FG).
    + assert (t < List.length g') as Lt by (eapply targets_lt; [exact FG'|exact I]).
      apply (depends_index g G i t N FG); try lia. rewrite !Nm. apply Same. apply (depends_index g' G' i t N' FG'); try lia. exact I.
  - intros i I. rewrite LG. now apply Bo.
  - intros i I. rewrite LG, L. now apply Bo'.
Qed.
Print Assumptions C37_stable.

(** a uses b and c (c twice), c uses b, d stands alone. *)
Definition case_graph : graph :=
  [(lit "a", [(1%Z, lit "c"); (2%Z, lit "b"); (3%Z, lit "c")]); (lit "d", []); (lit "b", []); (lit "c", [(4%Z, lit "b")])].
Example C37_case :
  toposort case_graph = Sorted [lit "d"; lit "b"; lit "c"; lit "a"] /\
  toposort [(lit "a", [(1%Z, lit "x"); (2%Z, lit "y")]); (lit "x", [])] = ItemNotFound 2 (lit "y") /\
  toposort [(lit "a", [(1%Z, lit "b")]); (lit "b", [(2%Z, lit "c"); (3%Z, lit "b")]); (lit "c", [])] = TypeCycle 1 (lit "b") /\
  NoDup (map fst case_graph).
Proof.
  split; [vm_compute; reflexivity|]. split; [vm_compute; reflexivity|]. split; [vm_compute; reflexivity|].
  unfold case_graph. cbn [map fst]. repeat constructor; cbn; intros H; repeat (destruct H as [H|H]; [discriminate|]); destruct H.
Qed.
