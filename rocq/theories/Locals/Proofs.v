From Verif.Base Require Import Prelude Search.
From Verif.Locals Require Import Model Spec.

Lemma zlen_repeat {A} (x : A) n : 0 <= n -> zlen (repeat x (Z.to_nat n)) = n.
Proof. intros H. unfold zlen. rewrite repeat_length. lia. Qed.
Lemma nth_repeat_in {A} (x : A) n i : (i < n)%nat -> nth_error (repeat x n) i = Some x.
Proof. revert i. induction n; intros [|i] H; cbn; try lia; auto. apply IHn. lia. Qed.

(** * [Locals] *)
Section Locals.
  Context {A : Type}.
  Implicit Types (l : locals A) (F : list A).

  (** The locals a compressed list stands for, from index [s] on. *)
  Fixpoint runs (s : Z) (u : list (Z * A)) : list A :=
    match u with [] => [] | (m, t) :: u => repeat t (Z.to_nat (m + 1 - s)) ++ runs (m + 1) u end.
  Fixpoint run_end (s : Z) (u : list (Z * A)) : Z :=
    match u with [] => s | (m, _) :: u => run_end (m + 1) u end.
  Fixpoint climbing (s : Z) (u : list (Z * A)) : Prop :=
    match u with [] => True | (m, _) :: u => s <= m /\ climbing (m + 1) u end.

  Lemma runs_len u : forall s, climbing s u -> zlen (runs s u) = run_end s u - s.
  Proof.
    induction u as [|[m t] u IH]; intros s H; cbn [runs run_end climbing] in *; [rewrite zlen_nil; lia|].
    destruct H as [H1 H2]. rewrite zlen_app, zlen_repeat, IH by (auto; lia). lia.
  Qed.
  Lemma runs_app u1 : forall s u2, runs s (u1 ++ u2) = runs s u1 ++ runs (run_end s u1) u2.
  Proof. induction u1 as [|[m t] u1 IH]; intros s u2; cbn [app runs run_end]; [reflexivity|]. rewrite IH, app_assoc. reflexivity. Qed.
  Lemma climbing_app u1 : forall s u2, climbing s u1 -> climbing (run_end s u1) u2 -> climbing s (u1 ++ u2).
  Proof. induction u1 as [|[m t] u1 IH]; intros s u2; cbn [app climbing run_end]; [auto|]. intros [H1 H2] H3. auto. Qed.
  Lemma climbing_ge u : forall s i x, climbing s u -> nth_error u i = Some x -> s <= fst x.
  Proof.
    induction u as [|[m t] u IH]; intros s [|i] x Hc H; cbn [nth_error climbing] in *; try discriminate.
    - injection H as <-. cbn. lia.
    - destruct Hc as [H1 H2]. pose proof (IH _ _ _ H2 H). lia.
  Qed.
  Lemma climbing_increasing u : forall s, climbing s u -> increasing fst u.
  Proof.
    induction u as [|[m t] u IH]; intros s Hc [|i] [|j] x y Hij Hx Hy; cbn [nth_error climbing] in *; try discriminate; try lia.
    - injection Hx as <-. destruct Hc as [H1 H2]. pose proof (climbing_ge _ _ _ _ H2 Hy). cbn. lia.
    - destruct Hc as [H1 H2]. apply (IH _ H2 i j); auto. lia.
  Qed.

  Lemma run_end_gt u : forall s i x, climbing s u -> nth_error u i = Some x -> fst x < run_end s u.
  Proof.
    induction u as [|[m t] u IH]; intros s [|i] x Hs Hx; try discriminate; cbn [run_end climbing nth_error] in *; destruct Hs as [_ Hs].
    - injection Hx as <-. cbn [fst]. pose proof (runs_len _ _ Hs). pose proof (zlen_nonneg (runs (m + 1) u)). lia.
    - eapply IH; eauto.
  Qed.

  (** The entry looked up: all entries before it end before [idx]. *)
  Lemma runs_lookup u : forall s idx i, climbing s u -> s <= idx -> (i <= List.length u)%nat ->
    (forall j x, (j < i)%nat -> nth_error u j = Some x -> fst x < idx) ->
    (forall x, nth_error u i = Some x -> idx <= fst x) ->
    nth_error (runs s u) (Z.to_nat (idx - s)) = match nth_error u i with Some x => Some (snd x) | None => None end.
  Proof.
    induction u as [|[m t] u IH]; intros s idx i Hc Hs Hi Hlo Hhi; cbn [runs climbing] in *.
    - destruct (Z.to_nat (idx - s)), i; reflexivity.
    - destruct Hc as [H1 H2]. destruct i as [|i]; cbn [nth_error].
      + specialize (Hhi _ eq_refl). cbn [fst] in Hhi. rewrite nth_error_app1 by (rewrite repeat_length; lia).
        apply nth_repeat_in. lia.
      + pose proof (Hlo 0%nat _ ltac:(lia) eq_refl) as H0. cbn [fst] in H0.
        rewrite nth_error_app2 by (rewrite repeat_length; lia). rewrite repeat_length.
        replace (Z.to_nat (idx - s) - Z.to_nat (m + 1 - s))%nat with (Z.to_nat (idx - (m + 1))) by lia.
        apply IH; auto; try lia.
        * cbn in Hi. lia.
        * intros j x Hj Hx. apply (Hlo (S j)); [lia|exact Hx].
  Qed.

  (** The state stands for the list [F]. *)
  Record stands l F : Prop := {
    st_num : num_locals l = zlen F;
    st_max : zlen F <= 50000;
    st_first : l_first l = firstn 50 F;
    st_climb : climbing 50 (l_uncached l);
    st_runs : runs 50 (l_uncached l) = skipn 50 F }.

  Lemma stands_empty : stands locals_empty [].
  Proof. constructor; try reflexivity. rewrite zlen_nil. lia. Qed.

  Lemma stands_get l F idx : stands l F -> 0 <= idx -> get l idx = nth_error F (Z.to_nat idx).
  Proof.
    intros [Hn Hm Hf Hc Hr] Hi. unfold get. rewrite Hf.
    destruct (nth_error (firstn 50 F) (Z.to_nat idx)) as [t|] eqn:E.
    - symmetry. rewrite <- (firstn_skipn 50 F). rewrite nth_error_app1; [exact E|]. apply nth_error_Some. congruence.
    - apply nth_error_None in E. rewrite firstn_length in E.
      destruct (Nat.le_gt_cases (List.length F) (Z.to_nat idx)) as [Hge|Hlt].
      + (* out of range *)
        rewrite (proj2 (nth_error_None F _) Hge). unfold get_bsearch.
        assert (Hend : forall i x, nth_error (l_uncached l) i = Some x -> fst x < idx).
        { intros i x Hx. assert (Hz := runs_len _ _ Hc). rewrite Hr in Hz.
          assert (Hl : zlen (skipn 50 F) <= idx - 50 \/ l_uncached l = []).
          { unfold zlen. rewrite skipn_length. destruct (Nat.le_gt_cases 50 (List.length F)); [left; lia|].
            right. destruct (l_uncached l) as [|[m t] u]; [reflexivity|]. exfalso. cbn [runs climbing] in *. destruct Hc as [Hc1 _].
            rewrite skipn_all2 in Hr by lia. replace (Z.to_nat (m + 1 - 50)) with (S (Z.to_nat (m - 50))) in Hr by lia. discriminate. }
          destruct Hl as [Hl|Hl]; [|rewrite Hl in Hx; destruct i; discriminate].
          enough (Hle : fst x < run_end 50 (l_uncached l)) by lia.
          eapply run_end_gt; eauto. }
        pose proof (binary_search_ok fst (l_uncached l) idx (climbing_increasing _ _ Hc)) as Hb.
        destruct (binary_search fst (l_uncached l) idx) as [i|i].
        * destruct Hb as (x & Hx & Hk). apply Hend in Hx. lia.
        * destruct Hb as (Hle & Hlo & Hhi). destruct (i =? List.length (l_uncached l))%nat eqn:Ei; [reflexivity|].
          apply Nat.eqb_neq in Ei. destruct (nth_error (l_uncached l) i) as [x|] eqn:Ex; [|apply nth_error_None in Ex; lia].
          pose proof (Hhi _ _ (le_n i) Ex). apply Hend in Ex. lia.
      + assert (H50 : 50 <= idx) by lia.
        assert (Hnth : nth_error F (Z.to_nat idx) = nth_error (runs 50 (l_uncached l)) (Z.to_nat (idx - 50))).
        { rewrite Hr. rewrite <- (firstn_skipn 50 F) at 1. rewrite nth_error_app2 by (rewrite firstn_length; lia).
          rewrite firstn_length. f_equal. lia. }
        rewrite Hnth. unfold get_bsearch.
        pose proof (binary_search_ok fst (l_uncached l) idx (climbing_increasing _ _ Hc)) as Hb.
        destruct (binary_search fst (l_uncached l) idx) as [i|i].
        * destruct Hb as (x & Hx & Hk). rewrite (runs_lookup _ 50 idx i); auto.
          -- destruct (nth_error _ i) as [[? ?]|]; reflexivity.
          -- apply Nat.lt_le_incl, nth_error_Some. congruence.
          -- intros j y Hj Hy. pose proof (climbing_increasing _ _ Hc j i y x Hj Hy Hx). lia.
          -- intros y Hy. rewrite Hx in Hy. injection Hy as <-. lia.
        * destruct Hb as (Hle & Hlo & Hhi). rewrite (runs_lookup _ 50 idx i); auto.
          -- destruct (i =? List.length (l_uncached l))%nat eqn:Ei.
             ++ apply Nat.eqb_eq in Ei. rewrite (proj2 (nth_error_None _ _)) by lia. reflexivity.
             ++ destruct (nth_error _ i) as [[? ?]|]; reflexivity.
          -- intros x Hx. pose proof (Hhi _ _ (le_n i) Hx). lia.
  Qed.

  Lemma stands_define l F n t : stands l F -> 0 <= n <= U32MAX ->
    let r := define l n t in
    if zlen F + n <=? 50000 then fst r = true /\ stands (snd r) (F ++ repeat t (Z.to_nat n))
    else fst r = false /\ stands (snd r) F.
  Proof.
    intros Hst Hn. unfold define. destruct Hst as [Hnum Hm Hf Hc Hr].
    destruct (n =? 0) eqn:E0.
    - apply Z.eqb_eq in E0. subst n. cbn [fst snd]. rewrite Z.add_0_r. destruct (zlen F <=? 50000) eqn:E; [|lia].
      cbn. rewrite app_nil_r. split; [reflexivity|]. constructor; auto.
    - apply Z.eqb_neq in E0. rewrite Hnum. pose proof (zlen_nonneg F) as HF. unfold MAX_WASM_FUNCTION_LOCALS, U32MAX in *.
      destruct (2 ^ 32 - 1 <? zlen F + n) eqn:E1.
      + destruct (zlen F + n <=? 50000) eqn:E2; [lia|]. cbn. split; [reflexivity|constructor; auto].
      + destruct (50000 <? zlen F + n) eqn:E3; destruct (zlen F + n <=? 50000) eqn:E2; try lia.
        * cbn. split; [reflexivity|constructor; auto].
        * unfold MAX_LOCALS_TO_TRACK. set (pf := Z.min (Z.max 0 (50 - zlen F)) n). cbn [fst snd]. split; [reflexivity|].
          assert (Hend : 50 <= zlen F -> run_end 50 (l_uncached l) = zlen F).
          { intros HF50. pose proof (runs_len _ _ Hc) as Hz. rewrite Hr in Hz. unfold zlen in *. rewrite skipn_length in Hz. lia. }
          assert (Hnone : zlen F <= 50 -> l_uncached l = []).
          { intros HF50. destruct (l_uncached l) as [|[m t'] u]; [reflexivity|]. exfalso. cbn [runs climbing] in *. destruct Hc as [Hc1 _].
            rewrite skipn_all2 in Hr by (unfold zlen in HF50; lia). replace (Z.to_nat (m + 1 - 50)) with (S (Z.to_nat (m - 50))) in Hr by lia. discriminate. }
          assert (Hfk : forall k a, firstn a (repeat t k) = repeat t (Nat.min a k)).
          { induction k as [|k IHk]; intros [|a]; cbn; auto. f_equal. apply IHk. }
          assert (Hfirst : l_first l ++ repeat t (Z.to_nat pf) = firstn 50 (F ++ repeat t (Z.to_nat n))).
          { rewrite Hf, firstn_app, Hfk. f_equal. f_equal. unfold zlen in *. lia. }
          constructor; cbn [num_locals l_first l_uncached].
          -- rewrite zlen_app, zlen_repeat by lia. lia.
          -- rewrite zlen_app, zlen_repeat by lia. lia.
          -- exact Hfirst.
          -- destruct (0 <? n - pf) eqn:Eu; [|exact Hc]. apply climbing_app; [exact Hc|]. cbn [climbing]. split; [|exact I].
             destruct (Z.le_gt_cases 50 (zlen F)) as [H|H]; [rewrite Hend by exact H; lia|].
             rewrite (Hnone ltac:(lia)). cbn [run_end]. lia.
          -- rewrite skipn_app. destruct (Z.le_gt_cases 50 (zlen F)) as [H|H].
             ++ assert (pf = 0) by lia. destruct (0 <? n - pf) eqn:Eu; [|lia].
                rewrite runs_app, Hr. f_equal. cbn [runs]. rewrite Hend, app_nil_r by exact H.
                replace (50 - List.length F)%nat with 0%nat by (unfold zlen in H; lia). cbn [skipn]. f_equal. lia.
             ++ rewrite (Hnone ltac:(lia)) in *. rewrite skipn_all2 by (unfold zlen in H; lia). cbn [app].
                assert (Hk : forall k a, skipn a (repeat t k) = repeat t (k - a)).
                { induction k as [|k IHk]; intros [|a]; cbn; auto. }
                rewrite Hk. destruct (0 <? n - pf) eqn:Eu; cbn [runs].
                ** rewrite app_nil_r. f_equal. unfold zlen in *. lia.
                ** replace (Z.to_nat n - (50 - List.length F))%nat with 0%nat by (unfold zlen in *; lia). reflexivity.
  Qed.

  (** A sequence of declarations, as [OperatorValidator] makes them. *)
  Fixpoint define_all l (ds : list (Z * A)) : list bool * locals A :=
    match ds with
    | [] => ([], l)
    | (n, t) :: ds => let '(ok, l) := define l n t in let '(oks, l) := define_all l ds in (ok :: oks, l)
    end.

  Lemma define_all_ok ds : forall l F, stands l F -> Forall (fun d => 0 <= fst d <= U32MAX) ds ->
    fst (define_all l ds) = fst (declare F ds) /\ stands (snd (define_all l ds)) (snd (declare F ds)).
  Proof.
    induction ds as [|[n t] ds IH]; intros l F Hst Hd; cbn [define_all declare]; [auto|].
    inversion Hd as [|? ? Hn Hd']; subst. cbn [fst] in Hn. pose proof (stands_define l F n t Hst Hn) as H. cbv zeta in H.
    destruct (define l n t) as [ok l'] eqn:E. cbn [fst snd] in H.
    destruct (zlen F + n <=? 50000); destruct H as [-> Hst'];
      destruct (IH _ _ Hst' Hd') as [H1 H2]; destruct (define_all l' ds) as [oks l'']; cbn [fst snd] in *; split; congruence.
  Qed.

  Lemma locals_ok (ds : list (Z * A)) : Forall (fun d => 0 <= fst d <= U32MAX) ds ->
    let r := define_all locals_empty ds in
    fst r = fst (declare [] ds) /\ len_locals (snd r) = zlen (snd (declare [] ds)) /\
    forall idx, 0 <= idx -> get (snd r) idx = nth_error (snd (declare [] ds)) (Z.to_nat idx).
  Proof.
    intros Hd r. destruct (define_all_ok ds locals_empty [] stands_empty Hd) as [H1 H2]. split; [exact H1|].
    split; [apply (st_num _ _ H2)|]. intros idx Hi. apply stands_get; assumption.
  Qed.
End Locals.

(** * [LocalInits] *)
Lemma set_bit_length l : forall i b, List.length (set_bit l i b) = List.length l.
Proof. induction l as [|x l IH]; intros [|i] b; cbn; auto. Qed.
Lemma set_bit_nth l : forall i b j, nth_error (set_bit l i b) j =
  if (i =? j)%nat && (j <? List.length l)%nat then Some b else nth_error l j.
Proof.
  induction l as [|x l IH]; intros [|i] b [|j]; cbn [set_bit nth_error List.length Nat.eqb andb]; auto; try (rewrite Bool.andb_false_r; reflexivity).
  apply IH.
Qed.

Lemma NoDup_snoc {A} (l : list A) x : NoDup l -> ~ In x l -> NoDup (l ++ [x]).
Proof.
  induction l as [|y l IH]; intros H Hx; cbn; [constructor; [auto|constructor]|]. inversion H; subst.
  constructor; [rewrite in_app_iff; cbn; intros [?|[?|[]]]; [auto|subst; apply Hx; left; reflexivity]|].
  apply IH; auto. intros Hin. apply Hx. right. exact Hin.
Qed.

(** The declared locals: [true] for those with a default value. *)
Definition D_uninit (D : list bool) (i : Z) : Prop := nth_error D (Z.to_nat i) = Some false.

(** Blocks: the height recorded on entry, what the log holds for it, what was set in it. *)
Inductive agree (D : list bool) : list nat -> list (list Z) -> list (list Z) -> Prop :=
| agree_nil : agree D [] [] []
| agree_cons h hs seg segs sc scs :
    agree D hs segs scs -> h = List.length (List.concat (rev segs)) ->
    (forall j, 0 <= j -> D_uninit D j -> (In j (List.concat (seg :: segs)) <-> In j (List.concat (sc :: scs)))) ->
    agree D (h :: hs) (seg :: segs) (sc :: scs).

Record tracks (D : list bool) (s : inits_t) (hs : list nat) (segs scs : list (list Z)) : Prop := {
  tr_len : List.length (li_bits s) = List.length D;
  tr_small : zlen D < U32MAX;
  tr_first : forall j, 0 <= j -> D_uninit D j -> li_first s <= j;
  tr_log : li_log s = List.concat (rev segs);
  tr_nodup : NoDup (li_log s);
  tr_range : forall j, In j (li_log s) -> 0 <= j /\ D_uninit D j;
  tr_bits : forall j b, 0 <= j -> nth_error D (Z.to_nat j) = Some b ->
     nth_error (li_bits s) (Z.to_nat j) = Some (b || (if in_dec Z.eq_dec j (li_log s) then true else false));
  tr_agree : agree D hs segs scs }.

Lemma in_concat_rev {A} (x : A) l : In x (List.concat (rev l)) <-> In x (List.concat l).
Proof. rewrite !in_concat. split; intros (y & H1 & H2); exists y; rewrite <- in_rev in *; auto. Qed.

Lemma agree_in D hs segs scs j : agree D hs segs scs -> 0 <= j -> D_uninit D j ->
  (In j (List.concat segs) <-> In j (List.concat scs)).
Proof. intros H. destruct H; intros; [reflexivity|auto]. Qed.

Lemma tracks_uninit D s hs segs scs i : tracks D s hs segs scs -> 0 <= i < zlen D ->
  is_uninit s i = Some (negb (nth (Z.to_nat i) D true) && negb (if in_dec Z.eq_dec i (List.concat scs) then true else false)).
Proof.
  intros H Hi. unfold is_uninit. assert (Hn : (Z.to_nat i < List.length D)%nat) by (unfold zlen in Hi; lia).
  destruct (nth_error D (Z.to_nat i)) as [b|] eqn:Eb; [|apply nth_error_None in Eb; lia].
  rewrite (nth_error_nth _ _ _ Eb).
  destruct (i <? li_first s) eqn:Ef.
  - destruct b; [reflexivity|]. pose proof (tr_first _ _ _ _ _ H i ltac:(lia) Eb). lia.
  - rewrite (tr_bits _ _ _ _ _ H i b ltac:(lia) Eb). f_equal. destruct b; [reflexivity|]. cbn [negb andb orb].
    f_equal. pose proof (agree_in _ _ _ _ i (tr_agree _ _ _ _ _ H) ltac:(lia) Eb) as Hiff.
    rewrite (tr_log _ _ _ _ _ H) in *.
    destruct (in_dec Z.eq_dec i (List.concat (rev segs))) as [Hin|Hin], (in_dec Z.eq_dec i (List.concat scs)) as [Hin'|Hin']; auto;
      exfalso; rewrite in_concat_rev in Hin; tauto.
Qed.

Lemma tracks_set D s hs seg segs sc scs i : tracks D s hs (seg :: segs) (sc :: scs) -> 0 <= i < zlen D ->
  exists s' seg', set_init s i = Some s' /\ tracks D s' hs (seg' :: segs) ((i :: sc) :: scs).
Proof.
  intros H Hi. pose proof (tracks_uninit _ _ _ _ _ i H Hi) as Hu. unfold set_init. rewrite Hu.
  assert (Hn : (Z.to_nat i < List.length D)%nat) by (unfold zlen in Hi; lia).
  destruct (nth_error D (Z.to_nat i)) as [b|] eqn:Eb; [|apply nth_error_None in Eb; lia].
  rewrite (nth_error_nth _ _ _ Eb). pose proof (tr_agree _ _ _ _ _ H) as Hag. inversion Hag as [|h hs' ? ? ? ? Hag' Hh Hin]; subst.
  destruct (negb b && negb (if in_dec Z.eq_dec i (List.concat (sc :: scs)) then true else false)) eqn:E.
  - apply andb_prop in E. destruct E as [E1 E2]. destruct b; [discriminate|]. destruct (in_dec _ _ _) as [|Hni] in E2; [discriminate|].
    assert (HD : D_uninit D i) by exact Eb.
    assert (Hlog : ~ In i (li_log s)).
    { rewrite (tr_log _ _ _ _ _ H), in_concat_rev. rewrite Hin by (auto; lia). exact Hni. }
    eexists. exists (seg ++ [i]). split; [reflexivity|]. constructor; cbn [li_bits li_log li_first].
    + rewrite set_bit_length. apply (tr_len _ _ _ _ _ H).
    + apply (tr_small _ _ _ _ _ H).
    + apply (tr_first _ _ _ _ _ H).
    + rewrite (tr_log _ _ _ _ _ H). cbn [rev]. rewrite !concat_app. cbn [List.concat]. rewrite !app_nil_r, app_assoc. reflexivity.
    + apply NoDup_snoc; [apply (tr_nodup _ _ _ _ _ H)|exact Hlog].
    + intros j Hj. apply in_app_iff in Hj. destruct Hj as [Hj|[<-|[]]]; [apply (tr_range _ _ _ _ _ H); exact Hj|]. split; [lia|exact HD].
    + intros j b Hj Hb. rewrite set_bit_nth, (tr_len _ _ _ _ _ H).
      destruct (Nat.eqb_spec (Z.to_nat i) (Z.to_nat j)) as [Hij|Hij].
      * assert (i = j) by lia. subst j. assert (Hlt : (Z.to_nat i <? List.length D)%nat = true) by (apply Nat.ltb_lt; lia). rewrite Hlt. cbn [andb].
        destruct (in_dec Z.eq_dec i (li_log s ++ [i])) as [|Hc]; [rewrite Bool.orb_true_r; reflexivity|].
        exfalso. apply Hc. apply in_or_app. right. left. reflexivity.
      * cbn [andb]. rewrite (tr_bits _ _ _ _ _ H j b Hj Hb). f_equal. f_equal.
        destruct (in_dec Z.eq_dec j (li_log s)) as [H1|H1], (in_dec Z.eq_dec j (li_log s ++ [i])) as [H2|H2]; auto; exfalso.
        -- apply H2. apply in_or_app. auto.
        -- apply in_app_iff in H2. destruct H2 as [H2|[<-|[]]]; [auto|lia].
    + constructor; [exact Hag'|reflexivity|]. intros j Hj Hu'. specialize (Hin j Hj Hu'). cbn [List.concat] in *.
      cbn [app]. rewrite <- app_assoc. rewrite !in_app_iff in *. cbn [In]. rewrite in_app_iff. tauto.
  - exists s, seg. split; [reflexivity|]. destruct H as [H1 H2 H3 H4 H5 H6 H7 H8]. constructor; auto.
    constructor; [exact Hag'|reflexivity|]. intros j Hj Hu'. rewrite Hin by auto. cbn [List.concat app In].
    split; [auto|]. intros [<-|Hx]; [|exact Hx].
    destruct b; [unfold D_uninit in Hu'; congruence|]. cbn [negb andb] in E.
    destruct (in_dec Z.eq_dec i (List.concat (sc :: scs))) as [Hd|]; [exact Hd|discriminate].
Qed.

Lemma tracks_enter D s hs segs scs : tracks D s hs segs scs -> tracks D s (inits_height s :: hs) ([] :: segs) ([] :: scs).
Proof.
  intros [H1 H2 H3 H4 H5 H6 H7 H8]. constructor; auto.
  - rewrite H4. cbn [rev]. rewrite concat_app. cbn [List.concat]. rewrite app_nil_r. reflexivity.
  - constructor; [exact H8|unfold inits_height; rewrite H4; reflexivity|]. intros j Hj Hu. cbn [List.concat app]. apply (agree_in D hs); auto.
Qed.

Lemma clear_nth seg : forall l j, (forall i, In i seg -> 0 <= i) -> 0 <= j -> nth_error (fold_left (fun l i => set_bit l (Z.to_nat i) false) seg l) (Z.to_nat j) =
  if in_dec Z.eq_dec j seg then (if (Z.to_nat j <? List.length l)%nat then Some false else nth_error l (Z.to_nat j)) else nth_error l (Z.to_nat j).
Proof.
  induction seg as [|i seg IH]; intros l j Hp Hj; cbn [fold_left].
  - destruct (in_dec Z.eq_dec j []) as [[]|]; reflexivity.
  - rewrite IH, set_bit_length, set_bit_nth by (auto; intros; apply Hp; right; auto).
    pose proof (Hp i (or_introl eq_refl)) as Hi0.
    destruct (in_dec Z.eq_dec j seg) as [H1|H1], (in_dec Z.eq_dec j (i :: seg)) as [H2|H2].
    + destruct (Z.to_nat j <? List.length l)%nat; [reflexivity|]. rewrite Bool.andb_false_r. reflexivity.
    + exfalso. apply H2. right. exact H1.
    + destruct H2 as [-> |H2]; [|contradiction]. rewrite Nat.eqb_refl. cbn [andb]. reflexivity.
    + destruct (Nat.eqb_spec (Z.to_nat i) (Z.to_nat j)) as [E|E]; [|reflexivity]. exfalso. apply H2. left. lia.
Qed.
Lemma clear_length seg : forall l, List.length (fold_left (fun l i => set_bit l (Z.to_nat i) false) seg l) = List.length l.
Proof. induction seg as [|i seg IH]; intros l; cbn [fold_left]; [reflexivity|]. rewrite IH. apply set_bit_length. Qed.

Lemma tracks_leave D s h hs seg segs sc scs : tracks D s (h :: hs) (seg :: segs) (sc :: scs) ->
  exists s', inits_pop s h = Some (s', seg) /\ tracks D s' hs segs scs.
Proof.
  intros [H1 H2 H3 H4 H5 H6 H7 H8]. inversion H8 as [|? ? ? ? ? ? Hag Hh Hin]; subst.
  cbn [rev] in H4. rewrite concat_app in H4. cbn [List.concat] in H4. rewrite app_nil_r in H4.
  set (base := List.concat (rev segs)) in *.
  unfold inits_pop. rewrite H4.
  assert (Hlt : (List.length (base ++ seg) <? List.length base)%nat = false) by (apply Nat.ltb_ge; rewrite app_length; lia).
  rewrite Hlt. rewrite skipn_app, Nat.sub_diag, skipn_all2 by lia. cbn [skipn app].
  rewrite firstn_app, Nat.sub_diag, firstn_all. cbn [firstn]. rewrite app_nil_r.
  eexists. split; [reflexivity|]. rewrite H4 in *.
  assert (Hdis : forall j, In j seg -> ~ In j base).
  { intros j Hs Hb. apply in_split in Hb. destruct Hb as (a & c & Hb). rewrite Hb in H5. rewrite <- app_assoc in H5. cbn [app] in H5.
    apply NoDup_remove_2 in H5. apply H5. rewrite !in_app_iff. auto. }
  constructor; cbn [li_bits li_log li_first]; auto.
  - rewrite clear_length. exact H1.
  - clear - H5. induction base as [|x base IH]; cbn in *; [constructor|]. inversion H5; subst. constructor; [|auto].
    intros Hx. apply H1. apply in_or_app. auto.
  - intros j Hj. apply H6. apply in_or_app. auto.
  - intros j b Hj Hb. rewrite clear_nth, H1 by (auto; intros i Hi; apply H6; apply in_or_app; auto). rewrite (H7 j b Hj Hb).
    assert (Hlj : (Z.to_nat j <? List.length D)%nat = true) by (apply Nat.ltb_lt, nth_error_Some; congruence). rewrite Hlj.
    destruct (in_dec Z.eq_dec j seg) as [Hs|Hs], (in_dec Z.eq_dec j base) as [Hbs|Hbs], (in_dec Z.eq_dec j (base ++ seg)) as [Hc|Hc]; auto.
    + exfalso. exact (Hdis _ Hs Hbs).
    + exfalso. exact (Hdis _ Hs Hbs).
    + destruct (H6 j Hc) as [_ Hd]. unfold D_uninit in Hd. rewrite Hb in Hd. injection Hd as ->. reflexivity.
    + exfalso. apply Hc. apply in_or_app. auto.
    + exfalso. apply Hc. apply in_or_app. auto.
    + apply in_app_iff in Hc. tauto.
Qed.

(** A function body run through [LocalInits] the way the validator does it: the
    height is recorded in the frame when a block is entered (operators.rs:1052-1064)
    and used when it is left (operators.rs:1093-1096). *)
Fixpoint run_events (s : inits_t) (hs : list nat) (h : list event) : option (inits_t * list nat) :=
  match h with
  | [] => Some (s, hs)
  | ESet i :: h => match set_init s i with Some s => run_events s hs h | None => None end
  | EEnter :: h => run_events s (inits_height s :: hs) h
  | ELeave :: h =>
      match hs with
      | hh :: hs => match inits_pop s hh with Some (s, _) => run_events s hs h | None => None end
      | [] => None
      end
  end.

Lemma run_events_ok D h : forall s hs segs scs scs', tracks D s hs segs scs ->
  Forall (fun e => match e with ESet i => 0 <= i < zlen D | _ => True end) h ->
  scopes scs h = Some scs' -> exists s' hs' segs', run_events s hs h = Some (s', hs') /\ tracks D s' hs' segs' scs'.
Proof.
  induction h as [|e h IH]; intros s hs segs scs scs' Ht Hf Hsc; cbn [run_events scopes] in *.
  - injection Hsc as <-. eauto.
  - inversion Hf as [|? ? He Hf']; subst. destruct e as [i| |].
    + destruct scs as [|sc scs]; [discriminate|].
      pose proof (tr_agree _ _ _ _ _ Ht) as Hag. inversion Hag; subst.
      destruct (tracks_set _ _ _ _ _ _ _ i Ht He) as (s' & seg' & -> & Ht'). eapply IH; eauto.
    + eapply IH; [apply tracks_enter; exact Ht|auto|exact Hsc].
    + destruct scs as [|sc scs]; [discriminate|].
      pose proof (tr_agree _ _ _ _ _ Ht) as Hag. inversion Hag; subst.
      destruct (tracks_leave _ _ _ _ _ _ _ _ Ht) as (s' & -> & Ht'). eapply IH; eauto.
Qed.

(** The locals of a function: parameters, then groups of declared locals. *)
Definition declared_defaults (params : Z) (groups : list (Z * bool)) : list bool :=
  repeat true (Z.to_nat params) ++ List.concat (map (fun g => repeat (snd g) (Z.to_nat (fst g))) groups).
Definition init_of (params : Z) (groups : list (Z * bool)) : inits_t :=
  fold_left (fun s g => define_locals s (fst g) (snd g)) groups (define_params inits_empty params).

Lemma init_tracks groups : forall s D, tracks D s [] [] [] -> 
  zlen D + zlen (List.concat (map (fun g : Z * bool => repeat (snd g) (Z.to_nat (fst g))) groups)) < U32MAX ->
  (li_first s = U32MAX -> forall j, 0 <= j -> ~ D_uninit D j) ->
  (li_first s = U32MAX \/ li_first s <= zlen D) ->
  tracks (D ++ List.concat (map (fun g => repeat (snd g) (Z.to_nat (fst g))) groups))
    (fold_left (fun s g => define_locals s (fst g) (snd g)) groups s) [] [] [].
Proof.
  induction groups as [|[n d] groups IH]; intros s D Ht Hz Hno Hor; cbn [fold_left map List.concat fst snd].
  - rewrite app_nil_r. exact Ht.
  - cbn [map List.concat fst snd] in Hz. rewrite zlen_app in Hz. rewrite app_assoc. 
    pose proof (zlen_nonneg D) as HD0. pose proof (zlen_nonneg (repeat d (Z.to_nat n))) as HR0.
    pose proof (zlen_nonneg (List.concat (map (fun g : Z * bool => repeat (snd g) (Z.to_nat (fst g))) groups))) as HG0.
    destruct Ht as [H1 H2 H3 H4 H5 H6 H7 H8]. cbn [rev List.concat] in H4.
    assert (Hnew : forall j, 0 <= j -> D_uninit (D ++ repeat d (Z.to_nat n)) j -> D_uninit D j \/ (d = false /\ zlen D <= j)).
    { intros j Hj Hu. unfold D_uninit in *. destruct (Nat.lt_ge_cases (Z.to_nat j) (List.length D)) as [Hl|Hl].
      - rewrite nth_error_app1 in Hu by exact Hl. left; exact Hu.
      - rewrite nth_error_app2 in Hu by exact Hl. right. split; [|unfold zlen; lia].
        apply nth_error_In, repeat_spec in Hu. congruence. }
    assert (Hwrap : wrapu 32 (zlen D) = zlen D) by (unfold wrapu; apply Z.mod_small; unfold U32MAX in *; lia).
    assert (HbD : zlen (li_bits s) = zlen D) by (unfold zlen; rewrite H1; reflexivity).
    apply IH.
    + constructor; unfold define_locals; cbn [li_bits li_log li_first]; auto.
      * rewrite !app_length, H1. reflexivity.
      * rewrite zlen_app. lia.
      * intros j Hj Hu. rewrite HbD, Hwrap. destruct (Hnew j Hj Hu) as [Hu'|[-> Hge]].
        -- specialize (H3 j Hj Hu'). destruct (negb d && (li_first s =? U32MAX)) eqn:E; [|exact H3].
           apply andb_prop in E. destruct E as [_ E]. apply Z.eqb_eq in E. destruct (Hno E j Hj Hu').
        -- cbn [negb andb]. destruct (li_first s =? U32MAX) eqn:E; [exact Hge|].
           apply Z.eqb_neq in E. lia.
      * rewrite H4. intros j [].
      * intros j b Hj Hb. rewrite H4. destruct (in_dec Z.eq_dec j []) as [[]|_]. rewrite Bool.orb_false_r.
        destruct (Nat.lt_ge_cases (Z.to_nat j) (List.length D)) as [Hl|Hl].
        -- rewrite nth_error_app1 in Hb by exact Hl. rewrite nth_error_app1 by lia. rewrite (H7 j b Hj Hb), H4.
           destruct (in_dec Z.eq_dec j []) as [[]|_]. rewrite Bool.orb_false_r. reflexivity.
        -- rewrite nth_error_app2 in Hb by exact Hl. rewrite nth_error_app2 by lia. rewrite H1. exact Hb.
      * constructor.
    + rewrite zlen_app. lia.
    + unfold define_locals. cbn [li_first]. rewrite HbD, Hwrap. intros Hf j Hj Hu. destruct (Hnew j Hj Hu) as [Hu'|[-> Hge]].
      * destruct (negb d && (li_first s =? U32MAX)) eqn:E; [unfold U32MAX in *; lia|]. apply (Hno Hf j Hj Hu').
      * cbn [negb andb] in Hf. destruct (li_first s =? U32MAX) eqn:E; [unfold U32MAX in *; lia|]. lia.
    + unfold define_locals. cbn [li_first]. rewrite HbD, Hwrap, zlen_app. destruct (negb d && (li_first s =? U32MAX)); [right; lia|]. lia.
Qed.

Lemma inits_ok params groups h scs i : 0 <= params ->
  zlen (declared_defaults params groups) < U32MAX ->
  Forall (fun e => match e with ESet j => 0 <= j < zlen (declared_defaults params groups) | _ => True end) h ->
  scopes [[]] h = Some scs -> 0 <= i < zlen (declared_defaults params groups) ->
  exists s hs, run_events (init_of params groups) [inits_height (init_of params groups)] h = Some (s, hs) /\
    is_uninit s i = Some (negb (nth (Z.to_nat i) (declared_defaults params groups) true) &&
                          negb (if in_dec Z.eq_dec i (List.concat scs) then true else false)).
Proof.
  intros Hp Hz Hf Hsc Hi. unfold declared_defaults in Hz. rewrite zlen_app in Hz.
  assert (H0 : tracks (repeat true (Z.to_nat params)) (define_params inits_empty params) [] [] []).
  { pose proof (zlen_nonneg (List.concat (map (fun g : Z * bool => repeat (snd g) (Z.to_nat (fst g))) groups))).
    constructor; cbn [define_params inits_empty li_bits li_log li_first app]; auto.
    - lia.
    - intros j Hj Hu. apply nth_error_In, repeat_spec in Hu. discriminate.
    - constructor.
    - intros j [].
    - intros j b Hj Hb. rewrite Hb. f_equal. apply nth_error_In, repeat_spec in Hb. subst. reflexivity.
    - constructor. }
  assert (H1 : tracks (declared_defaults params groups) (init_of params groups) [] [] []).
  { apply init_tracks; auto. intros _ j Hj Hu. apply nth_error_In, repeat_spec in Hu. discriminate. }
  apply tracks_enter in H1. destruct (run_events_ok _ _ _ _ _ _ _ H1 Hf Hsc) as (s' & hs' & segs' & Hr & Ht).
  exists s', hs'. split; [exact Hr|]. exact (tracks_uninit _ _ _ _ _ i Ht Hi).
Qed.

