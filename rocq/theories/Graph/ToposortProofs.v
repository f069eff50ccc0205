(** From indices to names. *)
From Coq Require Import ZArith Lia List Bool Arith Relations Permutation.
From Verif Require Import Base.Prelude Names.Kebab Graph.Toposort Graph.Spec Graph.ToposortIndex.
Import ListNotations.
Open Scope nat_scope.

Lemma str_eq_spec a b : str_eq a b = true <-> a = b.
Proof. unfold str_eq. destruct (list_eq_dec Z.eq_dec a b); split; congruence. Qed.
Lemma get_full_some g : forall x i, get_full g x = Some i -> nth_error (map fst g) i = Some x.
Proof.
  induction g as [|[k es] g IH]; cbn; [discriminate|]. intros x i. destruct (str_eq k x) eqn:E.
  - intros [= <-]. apply str_eq_spec in E. now subst.
  - destruct (get_full g x) as [j|] eqn:F; [|discriminate]. intros [= <-]. cbn. now apply IH.
Qed.
Lemma get_full_none g : forall x, get_full g x = None <-> ~ defined g x.
Proof.
  unfold defined. induction g as [|[k es] g IH]; cbn; [tauto|]. intros x. destruct (str_eq k x) eqn:E.
  - apply str_eq_spec in E. split; [discriminate|]. intros N. destruct N. now left.
  - assert (k <> x) by (intros H; apply str_eq_spec in H; congruence).
    specialize (IH x). destruct (get_full g x) as [j|]; cbn.
    + split; [discriminate|]. intros N. destruct IH as [_ IH]. enough (Some j = None) by discriminate. apply IH. tauto.
    + split; [|reflexivity]. intros _ [A|A]; [congruence|]. now apply IH.
Qed.
Lemma get_full_lt g x i : get_full g x = Some i -> i < List.length g.
Proof. intros H. apply get_full_some in H. rewrite <- (map_length fst g). apply nth_error_Some. congruence. Qed.
Lemma get_full_name g i : NoDup (map fst g) -> i < List.length g -> get_full g (name_of g i) = Some i.
Proof.
  intros N L. destruct (get_full g (name_of g i)) as [j|] eqn:E.
  - f_equal. pose proof (get_full_some _ _ _ E) as H. pose proof (get_full_lt _ _ _ E) as L'.
    apply (proj1 (NoDup_nth (map fst g) []) N); rewrite ?map_length; try assumption.
    unfold name_of in H. now apply nth_error_nth.
  - exfalso. apply get_full_none in E. apply E. apply nth_In. now rewrite map_length.
Qed.
Lemma get_full_name_of g x i : get_full g x = Some i -> x = name_of g i.
Proof. intros H. apply get_full_some in H. symmetry. now apply nth_error_nth. Qed.

(** The targets of the edges, as indices. *)
Definition resolved (g : graph) (es : list edge) (ts : list nat) : Prop := map (fun e => get_full g (snd e)) es = map Some ts.
Definition missing (g : graph) (e : edge) : bool := match get_full g (snd e) with None => true | Some _ => false end.

Lemma add_edges_spec g i : forall es states, List.length states = List.length g ->
  (exists ts states', resolved g es ts /\ List.find (missing g) es = None /\ add_edges g i es states = inr states' /\ List.length states' = List.length g /\
     (forall j, rem states' j = rem states j) /\
     (forall j x, cnt (rdeps states' j) x = cnt (rdeps states j) x + if x =? i then cnt ts j else 0)) \/
  (exists sp nm, List.find (missing g) es = Some (sp, nm) /\ add_edges g i es states = inl (ItemNotFound sp nm)).
Proof.
  induction es as [|[sp nm] es IH]; intros states L.
  - left. exists [], states. split; [reflexivity|]. split; [reflexivity|]. split; [reflexivity|]. split; [exact L|]. split; [reflexivity|].
    intros j x. destruct (x =? i); cbn; lia.
  - cbn [add_edges find]. unfold missing at 1 3. cbn [snd]. destruct (get_full g nm) as [j0|] eqn:E; [|right; now exists sp, nm].
    pose proof (get_full_lt _ _ _ E) as L0. assert (j0 < List.length states) as L1 by lia.
    destruct (IH (update states j0 (push_reverse i))) as [(ts & states' & R & F & A & L' & Hr & Hd)|(sp' & nm' & F & A)]; [now rewrite update_length| |].
    + left. exists (j0 :: ts), states'. split; [|split; [exact F|split; [exact A|split; [exact L'|split]]]].
      * unfold resolved in *. cbn. now rewrite E, R.
      * intros j. rewrite Hr, rem_update by exact L1. cbn. destruct (Nat.eqb_spec j j0) as [->|]; reflexivity.
      * intros j x. rewrite Hd, rdeps_update by exact L1. cbn [push_reverse reverse_deps]. rewrite cnt_cons.
        destruct (Nat.eqb_spec j j0) as [->|]; [|destruct (x =? i); lia]. change (reverse_deps (st states j0)) with (rdeps states j0).
        rewrite cnt_app, cnt_one. destruct (x =? i); lia.
    + right. exists sp', nm'. split; [exact F|exact A].
Qed.

Lemma nth_snoc {A} (l : list A) x d i : nth i (l ++ [x]) d = if i =? List.length l then x else nth i l d.
Proof.
  destruct (Nat.eqb_spec i (List.length l)) as [->|N]; [now rewrite nth_middle|].
  destruct (Nat.lt_ge_cases i (List.length l)); [now rewrite app_nth1|].
  rewrite !nth_overflow; [reflexivity|lia|rewrite app_length; cbn; lia].
Qed.

Lemma build_spec g : forall todo done G states, g = done ++ todo -> List.length states = List.length g ->
  Forall2 (fun e ts => resolved g (snd e) ts) done G ->
  (forall i, i < List.length done -> rem states i = List.length (tg G i)) ->
  (forall i, List.length done <= i -> rem states i = 0) ->
  (forall j x, cnt (rdeps states j) x = cnt (tg G x) j) ->
  (exists G' states', build g (List.length done) todo states = inr states' /\ List.find (missing g) (flat_map snd todo) = None /\
     List.length states' = List.length g /\ Forall2 (fun e ts => resolved g (snd e) ts) g G' /\
     (forall i, rem states' i = List.length (tg G' i)) /\
     (forall j x, cnt (rdeps states' j) x = cnt (tg G' x) j)) \/
  (exists sp nm, List.find (missing g) (flat_map snd todo) = Some (sp, nm) /\ build g (List.length done) todo states = inl (ItemNotFound sp nm)).
Proof.
  induction todo as [|[k es] todo IH]; intros done G states Eg L FG R1 R2 D.
  - left. rewrite app_nil_r in Eg. subst done. exists G, states. repeat split; try assumption.
    intros i. destruct (Nat.lt_ge_cases i (List.length g)) as [Li|Li]; [now apply R1|]. rewrite R2 by exact Li.
    assert (List.length g = List.length G) as E by (clear - FG; induction FG; cbn; congruence).
    unfold tg. rewrite nth_overflow by lia. reflexivity.
  - assert (List.length done = List.length G) as LG by (clear - FG; induction FG; cbn; congruence).
    assert (List.length done < List.length states) as Ld by (rewrite L, Eg, app_length; cbn; lia).
    cbn [build flat_map]. cbn [snd].
    assert (List.length (update states (List.length done) (set_remaining (List.length es))) = List.length g) as LU by (rewrite update_length; exact L).
    destruct (add_edges_spec g (List.length done) es _ LU) as [(ts & states' & R & F & A & L' & Hr & Hd)|(sp & nm & F & A)].
    2:{ right. exists sp, nm. rewrite A. split; [|reflexivity]. clear - F. induction es as [|e es IH]; [discriminate|].
        cbn in *. destruct (missing g e); [exact F|now apply IH]. }
    rewrite A.
    assert (List.find (missing g) (es ++ flat_map snd todo) = List.find (missing g) (flat_map snd todo)) as ->.
    { clear - F. induction es as [|e es IH]; [reflexivity|]. cbn in *. destruct (missing g e); [discriminate|now apply IH]. }
    replace (S (List.length done)) with (List.length (done ++ [(k, es)])) by (rewrite app_length; cbn; lia).
    assert (forall i, rem states' i = if i =? List.length done then List.length es else rem states i) as Hr'.
    { intros i. rewrite Hr, rem_update by exact Ld. reflexivity. }
    assert (forall i, tg (G ++ [ts]) i = if i =? List.length done then ts else tg G i) as Ht.
    { intros i. unfold tg. rewrite nth_snoc, LG. reflexivity. }
    apply (IH _ (G ++ [ts])).
    + rewrite <- app_assoc. exact Eg.
    + exact L'.
    + apply Forall2_app; [exact FG|constructor; [exact R|constructor]].
    + intros i Li. rewrite app_length in Li. cbn in Li. rewrite Hr', Ht. destruct (Nat.eqb_spec i (List.length done)) as [->|].
      * unfold resolved in R. apply (f_equal (@List.length _)) in R. now rewrite !map_length in R.
      * apply R1. lia.
    + intros i Li. rewrite app_length in Li. cbn in Li. rewrite Hr'. destruct (Nat.eqb_spec i (List.length done)); [lia|]. apply R2. lia.
    + intros j x. rewrite Hd, rdeps_update by exact Ld. rewrite Ht.
      replace (if j =? List.length done then reverse_deps (set_remaining (List.length es) (st states (List.length done))) else rdeps states j) with (rdeps states j)
        by (destruct (Nat.eqb_spec j (List.length done)) as [->|]; reflexivity).
      rewrite D. destruct (Nat.eqb_spec x (List.length done)) as [->|]; [|lia].
      unfold tg at 1. rewrite nth_overflow by lia. reflexivity.
Qed.

Lemma init_rem n i : rem (repeat (State 0 []) n) i = 0.
Proof. unfold rem, st. revert i. induction n as [|n IH]; intros [|i]; cbn; auto. Qed.
Lemma init_rdeps n i : rdeps (repeat (State 0 []) n) i = [].
Proof. unfold rdeps, st. revert i. induction n as [|n IH]; intros [|i]; cbn; auto. Qed.

Lemma seed_spec states : forall k, NoDup (seed k states) /\
  (forall i, In i (seed k states) <-> k <= i < k + List.length states /\ rem states (i - k) = 0).
Proof.
  induction states as [|s states IH]; intros k; cbn [seed].
  - split; [constructor|]. intros i. split; [intros []|]. intros [H _]. cbn in H. lia.
  - destruct (IH (S k)) as (N & A).
    assert (forall i, In i (seed (S k) states) <-> S k <= i < k + List.length (s :: states) /\ rem (s :: states) (i - k) = 0) as A'.
    { intros i. rewrite A. cbn [List.length]. split; intros (K1 & H); (split; [lia|]).
      - replace (i - k) with (S (i - S k)) by lia. exact H.
      - replace (i - k) with (S (i - S k)) in H by lia. exact H. }
    destruct (outbound_remaining s =? 0) eqn:E.
    + apply Nat.eqb_eq in E. split.
      * constructor; [|exact N]. intros I. apply A in I. lia.
      * intros i. cbn [In]. rewrite A'. split.
        -- intros [<-|(K1 & H)]; [|split; [lia|exact H]]. split; [cbn; lia|]. rewrite Nat.sub_diag. exact E.
        -- intros (K1 & H). destruct (Nat.eq_dec k i); [now left|right]. split; [lia|exact H].
    + apply Nat.eqb_neq in E. split; [exact N|]. intros i. rewrite A'. split; intros (K1 & H); (split; [|exact H]); [lia|].
      destruct (Nat.eq_dec k i) as [<-|]; [|lia]. rewrite Nat.sub_diag in H. destruct (E H).
Qed.

Lemma resolved_edges g G i : Forall2 (fun e ts => resolved g (snd e) ts) g G -> NoDup (map fst g) ->
  i < List.length g -> forall b, depends g (name_of g i) b <-> exists j, get_full g b = Some j /\ In j (tg G i).
Proof.
  intros F N L b.
  assert (exists e, nth_error g i = Some e) as ((k & es) & E).
  { destruct (nth_error g i) eqn:E; [eauto|]. apply nth_error_None in E. lia. }
  assert (resolved g es (tg G i)) as R.
  { enough (forall i (h : graph) G, Forall2 (fun e ts => resolved g (snd e) ts) h G -> nth_error h i = Some (k, es) -> resolved g es (tg G i)) as K.
    { exact (K i g G F E). }
    clear. induction i as [|i IH]; intros h G F E; destruct F as [|e ts h G Re F]; try discriminate; cbn in *.
    - injection E as ->. exact Re.
    - now apply (IH h). }
  assert (name_of g i = k) as -> by (unfold name_of; erewrite nth_error_nth; [reflexivity|]; now rewrite nth_error_map, E).
  assert (forall es', In (k, es') g -> es' = es) as U.
  { intros es' I. apply In_nth_error in I. destruct I as (i' & E').
    assert (i' = i) as ->; [|congruence].
    apply (proj1 (NoDup_nth_error (map fst g)) N).
    - apply nth_error_Some. now rewrite nth_error_map, E'.
    - now rewrite !nth_error_map, E, E'. }
  unfold resolved in R. split.
  - intros (es' & I & Ib). apply U in I. subst es'. apply in_map_iff in Ib. destruct Ib as ((sp & b') & <- & Ie). cbn.
    assert (In (get_full g b') (map (fun e => get_full g (snd e)) es)) as Im by (apply in_map_iff; exists (sp, b'); now split).
    rewrite R in Im. apply in_map_iff in Im. destruct Im as (j & Ej & Ij). exists j. split; [now symmetry|exact Ij].
  - intros (j & Ej & Ij). exists es. split; [eapply nth_error_In, E|].
    assert (In (Some j) (map Some (tg G i))) as Im by now apply in_map. rewrite <- R in Im. apply in_map_iff in Im.
    destruct Im as ((sp & b') & Eb & Ie). cbn in Eb. apply in_map_iff. exists (sp, b'). split; [|exact Ie]. cbn.
    rewrite (get_full_name_of _ _ _ Eb). symmetry. now apply get_full_name_of.
Qed.

Lemma targets_lt g G i t : Forall2 (fun e ts => resolved g (snd e) ts) g G -> In t (tg G i) -> t < List.length g.
Proof.
  intros F. unfold tg.
  enough (forall (h : graph) G, Forall2 (fun e ts => resolved g (snd e) ts) h G -> forall i, In t (nth i G []) -> t < List.length g) as K by (apply (K g G F)).
  clear. induction 1 as [|e ts h G R F IH]; intros [|i]; cbn; try tauto; [|apply IH].
  intros I. unfold resolved in R. assert (In (Some t) (map Some ts)) as Im by now apply in_map. rewrite <- R in Im.
  apply in_map_iff in Im. destruct Im as (e' & E & _). eapply get_full_lt, E.
Qed.

(** Everything at once: what [toposort] does. *)
Lemma toposort_spec g : NoDup (map fst g) ->
  (exists sp nm, List.find (missing g) (flat_map snd g) = Some (sp, nm) /\ toposort g = ItemNotFound sp nm) \/
  (List.find (missing g) (flat_map snd g) = None /\
   exists G ord, List.length G = List.length g /\ Forall2 (fun e ts => resolved g (snd e) ts) g G /\
     NoDup ord /\ (forall i, In i ord -> i < List.length g) /\ greedy G ord /\
     ((List.length ord = List.length g /\ toposort g = Sorted (map (name_of g) ord)) \/
      (List.length ord < List.length g /\
       (forall i, i < List.length g -> ~ In i ord -> exists t, In t (tg G i) /\ t < List.length g /\ ~ In t ord) /\
       exists sp i j, i < List.length g /\ j < List.length g /\ ~ In i ord /\ ~ In j ord /\
         (exists es, nth_error g i = Some (name_of g i, es) /\ In (sp, name_of g j) es) /\
         In j (tg G i) /\ toposort g = TypeCycle sp (name_of g j)))).
Proof.
  intros N. unfold toposort.
  destruct (build_spec g g [] [] (repeat (State 0 []) (List.length g))) as [(G & states & B & F0 & L & FG & Hr & Hd)|(sp & nm & F & B)].
  - reflexivity.
  - apply repeat_length.
  - constructor.
  - cbn. lia.
  - intros i _. apply init_rem.
  - intros j x. rewrite init_rdeps. unfold tg. destruct x; reflexivity.
  - right. split; [exact F0|]. cbn [List.length] in B. rewrite B.
    assert (List.length G = List.length g) as LG by (clear - FG; induction FG; cbn; congruence).
    assert (Inv G [] states (seed 0 states) []) as V.
    { destruct (seed_spec states 0) as (Ns & As). split; cbn [app].
      - lia.
      - exact Ns.
      - intros i I. apply As in I. lia.
      - intros i. rewrite waits_nil, Hr. cbn. lia.
      - intros i Li. rewrite As. rewrite Nat.sub_0_r. split; [intros H; split; [lia|exact H]|tauto].
      - intros j _ i. apply Hd. }
    destruct (drain_inv g G LG (S (List.length g)) states (seed 0 states) [] V) as (states' & ord & D & V' & Gr).
    + intros before a rest E. destruct before; discriminate.
    + cbn. lia.
    + cbn [map] in D. rewrite D. destruct V' as [V1 V2 V3 V4 V5 V6]. rewrite app_nil_r in *.
      exists G, ord. split; [exact LG|]. split; [exact FG|]. split; [exact V2|]. split; [intros i I; rewrite <- LG; now apply V3|]. split; [exact Gr|].
      rewrite map_length. destruct (Nat.eqb_spec (List.length ord) (List.length g)) as [E|E]; [left; split; [exact E|reflexivity]|right].
      assert (List.length ord < List.length g) as Lt.
      { pose proof (NoDup_bound (List.length G) ord V2 V3). lia. }
      split; [exact Lt|].
      assert (forall i, i < List.length g -> ~ In i ord -> exists t, In t (tg G i) /\ t < List.length g /\ ~ In t ord) as Next.
      { intros i Li Ni. assert (waits G ord i <> 0) as W.
        { intros W. apply Ni, V5; [lia|]. rewrite V4, W. reflexivity. }
        unfold waits in W. destruct (filter (fun j => negb (inb j ord)) (tg G i)) as [|t f] eqn:Ef; [destruct (W eq_refl)|].
        assert (In t (t :: f)) as It by now left. rewrite <- Ef in It. apply filter_In in It. destruct It as (It & Bt).
        exists t. split; [exact It|]. split; [eapply targets_lt; [exact FG|exact It]|]. apply inb_out. now destruct (inb t ord). }
      split; [exact Next|].
      assert (exists i0, i0 < List.length g /\ ~ In i0 ord) as (i0 & Li0 & Ni0).
      { destruct (Forall_Exists_dec (fun i => In i ord) (fun i => in_dec Nat.eq_dec i ord) (seq 0 (List.length g))) as [A|A].
        - exfalso. assert (List.length (seq 0 (List.length g)) <= List.length ord); [|rewrite seq_length in *; lia].
          apply NoDup_incl_length; [apply seq_NoDup|]. intros i I. rewrite Forall_forall in A. now apply A.
        - apply Exists_exists in A. destruct A as (i & I & Ni). apply in_seq in I. exists i. split; [lia|exact Ni]. }
      assert (forall i, i < List.length g -> (rem states' i = 0 <-> In i ord)) as Z by (intros i Li; apply V5; lia).
      (* the report *)
      assert (forall es ts, resolved g es ts -> (exists t, In t ts /\ t < List.length g /\ ~ In t ord) ->
        exists sp j, In (sp, name_of g j) es /\ In j ts /\ j < List.length g /\ ~ In j ord /\ cycle_edge g states' es = Some (TypeCycle sp (name_of g j))) as CE.
      { clear - V1 LG Z. induction es as [|[sp nm] es IH]; intros ts R (t & It & Lt & Nt).
        - destruct ts; [destruct It|discriminate].
        - destruct ts as [|t0 ts]; [destruct It|]. unfold resolved in R. cbn in R. injection R as R0 R.
          cbn [cycle_edge]. rewrite R0. pose proof (get_full_lt _ _ _ R0) as L0.
          destruct (nth_error states' t0) as [s|] eqn:Es; [|apply nth_error_None in Es; lia].
          assert (outbound_remaining s = rem states' t0) as -> by (unfold rem, st; now rewrite (nth_error_nth _ _ _ Es)).
          destruct (Nat.eqb_spec (rem states' t0) 0) as [E|E].
          + destruct (IH ts R) as (sp' & j & I1 & I2 & I3 & I4 & I5).
            * destruct It as [<-|It]; [|exists t; auto]. exfalso. apply Nt. now apply Z.
            * exists sp', j. split; [now right|]. split; [now right|]. auto.
          + exists sp, t0. rewrite <- (get_full_name_of _ _ _ R0). split; [now left|]. split; [now left|]. split; [exact L0|].
            split; [intros I; apply E, Z; assumption|reflexivity]. }
      assert (forall ss k, (forall i, nth_error ss i = nth_error states' (k + i)) -> k <= i0 -> List.length ss + k = List.length g ->
        exists sp i j, i < List.length g /\ j < List.length g /\ ~ In i ord /\ ~ In j ord /\
         (exists es, nth_error g i = Some (name_of g i, es) /\ In (sp, name_of g j) es) /\
         In j (tg G i) /\ report g states' k ss = TypeCycle sp (name_of g j)) as RE.
      { induction ss as [|s ss IH]; intros k Hk Lk Ek; [cbn in Ek; lia|]. cbn [report].
        assert (nth_error states' k = Some s) as Hs by (specialize (Hk 0); rewrite Nat.add_0_r in Hk; now rewrite <- Hk).
        assert (outbound_remaining s = rem states' k) as -> by (unfold rem, st; now rewrite (nth_error_nth _ _ _ Hs)).
        cbn [List.length] in Ek.
        destruct (Nat.eqb_spec (rem states' k) 0) as [E0|E0].
        - apply IH.
          + intros i. specialize (Hk (S i)). cbn in Hk. rewrite Hk. f_equal. lia.
          + destruct (Nat.eq_dec k i0) as [->|]; [|lia]. exfalso. apply Ni0. now apply Z.
          + lia.
        - assert (k < List.length g) as Lkg by lia.
          assert (~ In k ord) as Nk by (intros I; apply E0, Z; assumption).
          destruct (nth_error g k) as [[nm es]|] eqn:Eg; [|apply nth_error_None in Eg; lia].
          assert (nm = name_of g k) as -> by (unfold name_of; erewrite nth_error_nth; [reflexivity|]; now rewrite nth_error_map, Eg).
          assert (resolved g es (tg G k)) as R.
          { clear - FG Eg. unfold tg. enough (forall k (h : graph) G, Forall2 (fun e ts => resolved g (snd e) ts) h G -> nth_error h k = Some (name_of g k, es) -> resolved g es (nth k G [])) as K.
            2:{ clear. intros k. generalize (name_of g k). induction k as [|k IH]; intros x h G F E; destruct F as [|e ts h G Re F]; try discriminate; cbn in *.
                - injection E as ->. exact Re.
                - now apply (IH x h). }
            now apply (K k g). }
          destruct (CE es (tg G k) R (Next k Lkg Nk)) as (sp & j & I1 & I2 & I3 & I4 & I5). rewrite I5.
          exists sp, k, j. repeat (split; [assumption|]). split; [exists es; now split|]. now split. }
      apply (RE states' 0); [reflexivity|lia|lia].
  - left. exists sp, nm. split; [exact F|]. cbn [List.length] in B. now rewrite B.
Qed.
