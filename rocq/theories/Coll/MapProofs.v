(** The b-tree [IndexMap] refines the association list. *)
From Verif.Base Require Import Prelude.
From Verif.Coll Require Import MapModel MapSpec.
From Coq Require Import Lia Arith.

(** * Lists *)
Lemma set_nth_length {X} (l : list X) i x : List.length (set_nth l i x) = List.length l.
Proof. revert i. induction l as [|y l IH]; intros [|i]; cbn; auto. Qed.
Lemma set_nth_nth {X} (l : list X) i x j : (i < List.length l)%nat ->
  nth_error (set_nth l i x) j = if (j =? i)%nat then Some x else nth_error l j.
Proof.
  revert i j. induction l as [|y l IH]; intros i j Hi; [cbn in Hi; lia|].
  destruct i as [|i], j as [|j]; cbn; auto. rewrite IH by (cbn in Hi; lia). reflexivity.
Qed.
Lemma removelast_length {X} (l : list X) : List.length (removelast l) = (List.length l - 1)%nat.
Proof. induction l as [|x [|y l] IH]; auto. cbn [removelast List.length] in *. lia. Qed.
Lemma removelast_nth {X} (l : list X) j : (j < List.length l - 1)%nat -> nth_error (removelast l) j = nth_error l j.
Proof.
  revert j. induction l as [|x [|y l] IH]; intros j Hj; [cbn in Hj; lia|cbn in Hj; lia|].
  destruct j as [|j]; [reflexivity|]. change (removelast (x :: y :: l)) with (x :: removelast (y :: l)).
  cbn [nth_error]. apply IH. cbn in *. lia.
Qed.
Lemma last_nth {X} (l : list X) d : l <> [] -> nth_error l (List.length l - 1) = Some (last l d).
Proof.
  induction l as [|x [|y l] IH]; intros H; [congruence|reflexivity|].
  change (last (x :: y :: l) d) with (last (y :: l) d). rewrite <- IH by discriminate.
  cbn [List.length]. replace (S (S (List.length l)) - 1)%nat with (S (List.length l)) by lia.
  cbn [nth_error]. f_equal. lia.
Qed.
Lemma nth_ext_error {X} (l l' : list X) : List.length l = List.length l' ->
  (forall j, (j < List.length l)%nat -> nth_error l j = nth_error l' j) -> l = l'.
Proof.
  revert l'. induction l as [|x l IH]; intros [|y l'] Hl H; auto; try (cbn in Hl; lia).
  pose proof (H 0%nat ltac:(cbn; lia)) as H0. cbn in H0. injection H0 as <-. f_equal. apply IH; [cbn in Hl; lia|].
  intros j Hj. apply (H (S j)). cbn; lia.
Qed.

(** * Relation *)
Section Proofs.
  Context {K V : Type} (eqk : K -> K -> bool).
  Context (refl_k : forall a, eqk a a = true).
  Context (sym_k : forall a b, eqk a b = true -> eqk b a = true).
  Context (trans_k : forall a b c, eqk a b = true -> eqk b c = true -> eqk a c = true).

  Definition distinct (l : list (K * V)) : Prop :=
    forall i j a b, nth_error l i = Some a -> nth_error l j = Some b -> eqk (fst a) (fst b) = true -> i = j.
  Definition sim (a b : K * V) : Prop := eqk (fst a) (fst b) = true /\ snd a = snd b.
  Definition holds (t : list (K * nat)) (l : list (K * V)) : Prop :=
    forall k, match bt_find eqk t k with
              | Some (k0, i) => eqk k k0 = true /\ exists v, nth_error l i = Some (k0, v)
              | None => forall i e, nth_error l i = Some e -> eqk k (fst e) = false
              end.
  Record R (m : imap K V) (l : list (K * V)) : Prop := {
    R_len : List.length (slots m) = List.length l;
    R_sim : forall i a b, nth_error (slots m) i = Some a -> nth_error l i = Some b -> sim a b;
    R_dis : distinct l;
    R_tree : holds (key2slot m) l }.

  Lemma eqk_false_trans a b c : eqk a b = true -> eqk a c = eqk b c.
  Proof.
    intros H. destruct (eqk b c) eqn:E; [apply (trans_k a b c H E)|].
    destruct (eqk a c) eqn:E2; [|reflexivity]. rewrite <- E. symmetry. apply (trans_k b a c (sym_k _ _ H) E2).
  Qed.

  Lemma find_some (l : list (K * V)) k i k0 v : find eqk l k = Some (i, k0, v) -> nth_error l i = Some (k0, v) /\ eqk k k0 = true.
  Proof.
    revert i. induction l as [|[k1 v1] l IH]; intros i H; cbn [find] in H; [discriminate|].
    destruct (eqk k k1) eqn:E; [injection H as <- <- <-; auto|].
    destruct (find eqk l k) as [[[i' k'] v']|]; [|discriminate]. injection H as <- <- <-. cbn [nth_error]. apply IH. reflexivity.
  Qed.
  Lemma find_none (l : list (K * V)) k : find eqk l k = None -> forall i e, nth_error l i = Some e -> eqk k (fst e) = false.
  Proof.
    induction l as [|[k1 v1] l IH]; intros H i e He; [destruct i; discriminate|]. cbn [find] in H.
    destruct (eqk k k1) eqn:E; [discriminate|]. destruct (find eqk l k) as [[[i' k'] v']|]; [discriminate|].
    destruct i as [|i]; [injection He as <-; exact E|]. exact (IH eq_refl i e He).
  Qed.

  (** What the tree finds is what the list finds. *)
  Lemma tree_find t l k : distinct l -> holds t l ->
    match find eqk l k with
    | Some (i, k0, v) => bt_find eqk t k = Some (k0, i)
    | None => bt_find eqk t k = None
    end.
  Proof.
    intros Hd Ht. specialize (Ht k). destruct (find eqk l k) as [[[i k0] v]|] eqn:E.
    - apply find_some in E. destruct E as [E1 E2]. destruct (bt_find eqk t k) as [[k1 j]|].
      + destruct Ht as (Hk & v1 & Hv). assert (i = j) as <-.
        { refine (Hd i j _ _ E1 Hv _). cbn. apply (trans_k k0 k k1); auto. }
        rewrite E1 in Hv. injection Hv as <- <-. reflexivity.
      + pose proof (Ht i _ E1) as Hx. cbn in Hx. congruence.
    - destruct (bt_find eqk t k) as [[k1 j]|]; [|reflexivity]. destruct Ht as (Hk & v1 & Hv).
      pose proof (find_none _ _ E _ _ Hv) as Hn. cbn in Hn. congruence.
  Qed.

  Lemma put_none (l : list (K * V)) k v : find eqk l k = None -> put eqk l k v = l ++ [(k, v)].
  Proof.
    induction l as [|[k1 v1] l IH]; cbn [find put app]; [reflexivity|]. destruct (eqk k k1); [discriminate|].
    destruct (find eqk l k) as [[[? ?] ?]|]; [discriminate|]. intros _. rewrite IH; reflexivity.
  Qed.
  Lemma put_some (l : list (K * V)) k v i k0 v0 : find eqk l k = Some (i, k0, v0) -> put eqk l k v = set_nth l i (k0, v).
  Proof.
    revert i. induction l as [|[k1 v1] l IH]; intros i; cbn [find put]; [discriminate|]. destruct (eqk k k1).
    - intros [= <- <- <-]. reflexivity.
    - destruct (find eqk l k) as [[[? ?] ?]|]; [|discriminate]. intros [= <- <- <-]. cbn [set_nth]. f_equal. apply IH. reflexivity.
  Qed.
  Lemma put_at_set l i k v v0 : nth_error l i = Some (k, v0) -> put_at l i v = @set_nth (K * V) l i (k, v).
  Proof.
    revert i. induction l as [|[k1 v1] l IH]; intros [|i]; cbn [nth_error put_at set_nth]; try discriminate.
    - intros [= -> ->]. reflexivity.
    - intros H. f_equal. apply IH. exact H.
  Qed.
  Lemma put_at_none l i v : nth_error l i = None -> @put_at K V l i v = l.
  Proof.
    revert i. induction l as [|[k1 v1] l IH]; intros [|i]; cbn [nth_error put_at]; try discriminate; auto.
    intros H. f_equal. apply IH. exact H.
  Qed.
  Lemma drop_none (l : list (K * V)) k : find eqk l k = None -> drop eqk l k = l.
  Proof.
    induction l as [|[k1 v1] l IH]; cbn [find drop]; [reflexivity|]. destruct (eqk k k1); [discriminate|].
    destruct (find eqk l k) as [[[? ?] ?]|]; [discriminate|]. intros _. rewrite IH; reflexivity.
  Qed.
  Lemma drop_some (l : list (K * V)) k i k0 v0 : find eqk l k = Some (i, k0, v0) ->
    List.length (drop eqk l k) = (List.length l - 1)%nat /\
    forall j, (j < List.length l - 1)%nat -> nth_error (drop eqk l k) j = nth_error l (if (j =? i)%nat then (List.length l - 1)%nat else j).
  Proof.
    revert i. induction l as [|[k1 v1] l IH]; intros i; cbn [find drop]; [discriminate|]. destruct (eqk k k1).
    - intros [= <- <- <-]. destruct l as [|e l]; [cbn; split; [reflexivity|intros j Hj; lia]|].
      split; [cbn [List.length]; rewrite removelast_length; cbn [List.length]; lia|]. intros j Hj.
      cbn [List.length] in *. destruct j as [|j].
      + cbn [nth_error Nat.eqb]. rewrite <- (last_nth (e :: l) e) by discriminate.
        replace (S (S (List.length l)) - 1)%nat with (S (List.length (e :: l) - 1)) by (cbn [List.length]; lia). reflexivity.
      + cbn [nth_error Nat.eqb]. apply removelast_nth. cbn [List.length]. lia.
    - destruct (find eqk l k) as [[[i' ?] ?]|] eqn:E; [|discriminate]. intros [= <- <- <-].
      destruct (IH i' eq_refl) as [H1 H2]. apply find_some in E. destruct E as [E _].
      assert (Hl : (i' < List.length l)%nat) by (apply nth_error_Some; congruence).
      split; [cbn [List.length]; lia|]. intros j Hj. cbn [List.length] in *.
      destruct j as [|j]; [reflexivity|]. cbn [nth_error Nat.eqb]. rewrite H2 by lia.
      destruct (j =? i')%nat; [|reflexivity]. replace (S (List.length l) - 1)%nat with (S (List.length l - 1)) by lia. reflexivity.
  Qed.

  (** * Tree operations *)
  Lemma bt_find_eqk t k k' : eqk k k' = true -> bt_find eqk t k = bt_find eqk t k'.
  Proof.
    intros H. induction t as [|[k0 i] t IH]; cbn [bt_find]; [reflexivity|].
    rewrite (eqk_false_trans k k' k0 H), IH. reflexivity.
  Qed.
  Lemma bt_find_set t k j k' : bt_find eqk (bt_set eqk t k j) k' =
    if eqk k k' then match bt_find eqk t k with Some (k0, _) => Some (k0, j) | None => None end else bt_find eqk t k'.
  Proof.
    induction t as [|[k0 i] t IH]; cbn [bt_find bt_set]; [destruct (eqk k k'); reflexivity|].
    destruct (eqk k k0) eqn:E; cbn [bt_find].
    - destruct (eqk k k') eqn:E2.
      + rewrite (trans_k k' k k0 (sym_k _ _ E2) E). reflexivity.
      + destruct (eqk k' k0) eqn:E3; [|reflexivity]. rewrite (trans_k k k0 k' E (sym_k _ _ E3)) in E2. discriminate.
    - destruct (eqk k' k0) eqn:E3.
      + destruct (eqk k k') eqn:E2; [|reflexivity]. rewrite (trans_k k k' k0 E2 E3) in E. discriminate.
      + exact IH.
  Qed.
  (** Removing: keys in the tree occur once. *)
  Fixpoint uniq (t : list (K * nat)) : Prop :=
    match t with [] => True | (k, _) :: t => bt_find eqk t k = None /\ uniq t end.
  Lemma bt_find_remove t k k' : uniq t ->
    bt_find eqk (bt_remove eqk t k) k' = if eqk k k' then None else bt_find eqk t k'.
  Proof.
    induction t as [|[k0 i] t IH]; cbn [bt_find bt_remove uniq]; intros Hu; [destruct (eqk k k'); reflexivity|].
    destruct Hu as [Hn Hu]. destruct (eqk k k0) eqn:E.
    - destruct (eqk k k') eqn:E2.
      + rewrite <- Hn. apply bt_find_eqk. apply (trans_k k' k k0); auto.
      + destruct (eqk k' k0) eqn:E3; [|reflexivity]. rewrite (trans_k k k0 k' E (sym_k _ _ E3)) in E2. discriminate.
    - cbn [bt_find]. rewrite (IH Hu). destruct (eqk k' k0) eqn:E3; [|reflexivity].
      destruct (eqk k k') eqn:E2; [|reflexivity]. rewrite (trans_k k k' k0 E2 E3) in E. discriminate.
  Qed.
  Lemma uniq_remove t k : uniq t -> uniq (bt_remove eqk t k).
  Proof.
    induction t as [|[k0 i] t IH]; cbn [bt_remove uniq]; intros Hu; [exact I|]. destruct Hu as [Hn Hu].
    destruct (eqk k k0); [exact Hu|]. cbn [uniq]. split; [|auto]. rewrite bt_find_remove by exact Hu. rewrite Hn. destruct (eqk k k0); reflexivity.
  Qed.
  Lemma uniq_set t k j : uniq t -> uniq (bt_set eqk t k j).
  Proof.
    induction t as [|[k0 i] t IH]; cbn [bt_set uniq]; intros Hu; [exact I|]. destruct Hu as [Hn Hu].
    destruct (eqk k k0) eqn:E; cbn [uniq]; split; auto. rewrite bt_find_set. destruct (eqk k k0); [discriminate|exact Hn].
  Qed.

  Definition good (m : imap K V) (l : list (K * V)) : Prop := R m l /\ uniq (key2slot m).

  Lemma good_new : good imap_new [].
  Proof.
    split; [|exact I]. constructor; cbn [imap_new slots key2slot List.length]; auto.
    - intros [|i] a b H; discriminate.
    - intros [|i] j a b H; discriminate.
    - intros k. cbn [bt_find]. intros [|i] e H; discriminate.
  Qed.

  Lemma nth_lt {X} (l : list X) i x : nth_error l i = Some x -> (i < List.length l)%nat.
  Proof. intros H. apply nth_error_Some. congruence. Qed.
  Lemma nth_some {X} (l : list X) i : (i < List.length l)%nat -> exists x, nth_error l i = Some x.
  Proof. intros H. destruct (nth_error l i) eqn:E; eauto. apply nth_error_None in E. lia. Qed.

  Lemma good_find m l k : good m l ->
    match find eqk l k with
    | Some (i, k0, v) => bt_find eqk (key2slot m) k = Some (k0, i) /\ eqk k k0 = true /\ nth_error l i = Some (k0, v) /\
                         exists sk, nth_error (slots m) i = Some (sk, v) /\ eqk sk k0 = true
    | None => bt_find eqk (key2slot m) k = None
    end.
  Proof.
    intros [[Hl Hs Hd Ht] Hu]. pose proof (tree_find _ _ k Hd Ht) as H. destruct (find eqk l k) as [[[i k0] v]|] eqn:E; [|exact H].
    apply find_some in E. destruct E as [E1 E2]. split; [exact H|]. split; [exact E2|]. split; [exact E1|].
    destruct (nth_some (slots m) i) as [[sk sv] Hn]; [rewrite Hl; exact (nth_lt _ _ _ E1)|].
    destruct (Hs _ _ _ Hn E1) as [H1 H2]. cbn in *. subst. eauto.
  Qed.

  (** A new key goes last. *)
  Lemma good_push m l k v : good m l -> find eqk l k = None ->
    good (mkMap ((k, List.length (slots m)) :: key2slot m) (slots m ++ [(k, v)])) (l ++ [(k, v)]).
  Proof.
    intros Hg E. pose proof (good_find m l k Hg) as Hb. rewrite E in Hb. destruct Hg as [[Hl Hs Hd Ht] Hu].
    pose proof (find_none _ _ E) as Hn.
    assert (Hlast : forall i e, nth_error (l ++ [(k, v)]) i = Some e -> nth_error l i = Some e \/ (i = List.length l /\ e = (k, v))).
    { intros i e He. destruct (Nat.lt_ge_cases i (List.length l)) as [H|H].
      - rewrite nth_error_app1 in He by exact H. left; exact He.
      - rewrite nth_error_app2 in He by exact H. destruct (i - List.length l)%nat as [|x] eqn:Ei; cbn in He; [injection He as <-; right; split; [lia|reflexivity]|destruct x; discriminate]. }
    split; [constructor|]; cbn [key2slot slots].
    - rewrite !app_length, Hl. reflexivity.
    - intros i a b Ha Hb'. destruct (Hlast i b Hb') as [H|[-> ->]].
      + rewrite nth_error_app1 in Ha by (rewrite Hl; exact (nth_lt _ _ _ H)). exact (Hs _ _ _ Ha H).
      + rewrite nth_error_app2 in Ha by lia. rewrite Hl, Nat.sub_diag in Ha. injection Ha as <-. split; [apply refl_k|reflexivity].
    - intros i j a b Ha Hb' He. destruct (Hlast i a Ha) as [H|[-> ->]], (Hlast j b Hb') as [H'|[-> ->]].
      + exact (Hd _ _ _ _ H H' He).
      + apply sym_k in He. pose proof (Hn _ _ H) as Hx. cbn in *. congruence.
      + pose proof (Hn _ _ H') as Hx. cbn in *. congruence.
      + reflexivity.
    - intros k'. cbn [bt_find]. destruct (eqk k' k) eqn:E2.
      + split; [exact E2|]. exists v. rewrite nth_error_app2 by lia. rewrite Hl, Nat.sub_diag. reflexivity.
      + specialize (Ht k'). destruct (bt_find eqk (key2slot m) k') as [[k0 i]|].
        * destruct Ht as (H1 & v1 & H2). split; [exact H1|]. exists v1. rewrite nth_error_app1 by exact (nth_lt _ _ _ H2). exact H2.
        * intros i e He. destruct (Hlast i e He) as [H|[-> ->]]; [exact (Ht _ _ H)|exact E2].
    - cbn [uniq]. split; [exact Hb|exact Hu].
  Qed.

  (** The value at a position is replaced; the slot's key may be, by an equal one. *)
  Lemma good_set m l i k0 v0 sk v : good m l -> nth_error l i = Some (k0, v0) -> eqk sk k0 = true ->
    good (mkMap (key2slot m) (set_nth (slots m) i (sk, v))) (set_nth l i (k0, v)).
  Proof.
    intros [[Hl Hs Hd Ht] Hu] Hi Hk. pose proof (nth_lt _ _ _ Hi) as Hlt.
    assert (Hn : forall j e, nth_error (set_nth l i (k0, v)) j = Some e -> exists v', nth_error l j = Some (fst e, v')).
    { intros j e. rewrite set_nth_nth by exact Hlt. destruct (Nat.eqb_spec j i) as [->|]; [intros [= <-]; eauto|]. destruct e; cbn; eauto. }
    split; [constructor|]; cbn [key2slot slots].
    - rewrite !set_nth_length. exact Hl.
    - intros j a b. rewrite !set_nth_nth by lia. destruct (j =? i)%nat; [intros [= <-] [= <-]; split; auto|apply Hs].
    - intros j j' a b Ha Hb He. apply Hn in Ha, Hb. destruct Ha as [va Ha], Hb as [vb Hb]. exact (Hd _ _ _ _ Ha Hb He).
    - intros k. specialize (Ht k). destruct (bt_find eqk (key2slot m) k) as [[k1 j]|].
      + destruct Ht as (H1 & v1 & H2). split; [exact H1|]. rewrite set_nth_nth by exact Hlt.
        destruct (Nat.eqb_spec j i) as [->|]; [|eauto]. rewrite Hi in H2. injection H2 as <- <-. eauto.
      + intros j e He. apply Hn in He. destruct He as [v' He]. exact (Ht _ _ He).
    - exact Hu.
  Qed.

  (** Removal. *)
  Lemma good_remove m l k i k0 v0 : good m l -> find eqk l k = Some (i, k0, v0) ->
    exists m' rk, m_swap_remove eqk m k = Some (m', Some (i, rk, v0)) /\ eqk rk k0 = true /\ good m' (drop eqk l k).
  Proof.
    intros Hg E. pose proof (good_find m l k Hg) as Hb. rewrite E in Hb. destruct Hb as (Hb & Hk & Hi & sk & Hsi & Hsk).
    destruct Hg as [[Hl Hs Hd Ht] Hu]. pose proof (drop_some _ _ _ _ _ E) as [D1 D2].
    unfold m_swap_remove, vec_swap_remove. rewrite Hb, Hsi.
    set (sl := removelast (set_nth (slots m) i (last (slots m) (sk, v0)))).
    pose proof (nth_lt _ _ _ Hi) as Hlt.
    assert (Hsl : List.length sl = (List.length l - 1)%nat) by (unfold sl; rewrite removelast_length, set_nth_length, Hl; reflexivity).
    assert (Hlast : nth_error (slots m) (List.length l - 1) = Some (last (slots m) (sk, v0))).
    { rewrite <- Hl. apply last_nth. intros Hn. rewrite Hn in Hl. cbn in Hl. lia. }
    assert (Hsn : forall j, (j < List.length l - 1)%nat -> nth_error sl j = nth_error (slots m) (if (j =? i)%nat then (List.length l - 1)%nat else j)).
    { intros j Hj. unfold sl. rewrite removelast_nth by (rewrite set_nth_length; lia). rewrite set_nth_nth by lia.
      destruct (j =? i)%nat; [symmetry; exact Hlast|reflexivity]. }
    assert (Hsim : forall j a b, nth_error sl j = Some a -> nth_error (drop eqk l k) j = Some b -> sim a b).
    { intros j a b Ha Hb'. pose proof (nth_lt _ _ _ Ha) as Hj. rewrite Hsl in Hj. rewrite Hsn in Ha by exact Hj. rewrite D2 in Hb' by exact Hj.
      exact (Hs _ _ _ Ha Hb'). }
    assert (Hdn : forall j e, nth_error (drop eqk l k) j = Some e -> (j < List.length l - 1)%nat /\ nth_error l (if (j =? i)%nat then (List.length l - 1)%nat else j) = Some e).
    { intros j e He. pose proof (nth_lt _ _ _ He) as Hj. rewrite D1 in Hj. rewrite D2 in He by exact Hj. auto. }
    assert (Hd' : distinct (drop eqk l k)).
    { intros a b ea eb Ha Hb' He. apply Hdn in Ha, Hb'. destruct Ha as [La Ha], Hb' as [Lb Hb'].
      pose proof (Hd _ _ _ _ Ha Hb' He) as Hab. destruct (Nat.eqb_spec a i), (Nat.eqb_spec b i); lia. }
    (* nothing left equals [k] *)
    assert (Hgone : forall j e, nth_error (drop eqk l k) j = Some e -> eqk k (fst e) = false).
    { intros j e He. apply Hdn in He. destruct He as [Lj He]. destruct (eqk k (fst e)) eqn:E2; [|reflexivity].
      assert (Hq : eqk (fst (k0, v0)) (fst e) = true) by (cbn; apply (trans_k k0 k); auto).
      pose proof (Hd _ _ _ _ Hi He Hq) as Hx. destruct (Nat.eqb_spec j i); lia. }
    rewrite Hsl. destruct (Nat.eqb_spec i (List.length l - 1)) as [Hx|Hx].
    - exists (mkMap (bt_remove eqk (key2slot m) k) sl), sk. split; [reflexivity|]. split; [exact Hsk|].
      split; [constructor; cbn [key2slot slots]; auto; [lia|]|apply uniq_remove; exact Hu].
      intros k'. rewrite bt_find_remove by exact Hu. destruct (eqk k k') eqn:E2.
      + intros j e He. rewrite <- (eqk_false_trans k k' (fst e) E2). exact (Hgone _ _ He).
      + specialize (Ht k'). destruct (bt_find eqk (key2slot m) k') as [[k1 j]|].
        * destruct Ht as (H1 & v1 & H2). split; [exact H1|]. exists v1.
          assert (Hji : j <> i). { intros ->. rewrite Hi in H2. injection H2 as <- <-. rewrite (trans_k k k0 k' Hk (sym_k _ _ H1)) in E2. discriminate. }
          pose proof (nth_lt _ _ _ H2). rewrite D2 by lia. destruct (Nat.eqb_spec j i); [lia|exact H2].
        * intros j e He. apply Hdn in He. destruct He as [_ He]. exact (Ht _ _ He).
    - destruct (nth_some l (List.length l - 1)) as [[lk lv] Hll]; [lia|].
      assert (Hsi' : nth_error sl i = Some (last (slots m) (sk, v0))).
      { rewrite Hsn by lia. rewrite Nat.eqb_refl. exact Hlast. }
      rewrite Hsi'. destruct (last (slots m) (sk, v0)) as [swk swv] eqn:Esw.
      destruct (Hs _ _ _ Hlast Hll) as [Hsw1 Hsw2]. cbn [fst snd] in Hsw1, Hsw2.
      assert (Hkl : eqk k lk = false).
      { destruct (eqk k lk) eqn:E2; [|reflexivity]. assert (Hq : eqk (fst (k0, v0)) (fst (lk, lv)) = true) by (cbn; apply (trans_k k0 k); auto).
        pose proof (Hd _ _ _ _ Hi Hll Hq). lia. }
      assert (Hlt' : bt_find eqk (key2slot m) lk = Some (lk, (List.length l - 1)%nat)).
      { specialize (Ht lk). destruct (bt_find eqk (key2slot m) lk) as [[k1 j]|].
        - destruct Ht as (H1 & v1 & H2). assert ((List.length l - 1)%nat = j) as <- by exact (Hd _ _ _ _ Hll H2 H1).
          rewrite Hll in H2. injection H2 as <- <-. reflexivity.
        - pose proof (Ht _ _ Hll) as Hc. cbn in Hc. rewrite refl_k in Hc. discriminate. }
      assert (Hkk : bt_find eqk (bt_remove eqk (key2slot m) k) swk = Some (lk, (List.length l - 1)%nat)).
      { rewrite (bt_find_eqk _ swk lk Hsw1), bt_find_remove by exact Hu. rewrite Hkl. exact Hlt'. }
      rewrite Hkk. eexists _, sk. split; [reflexivity|]. split; [exact Hsk|].
      split; [constructor; cbn [key2slot slots]; auto; [lia|]|apply uniq_set, uniq_remove; exact Hu].
      intros k'. rewrite bt_find_set, Hkk. destruct (eqk swk k') eqn:E3.
      + split; [apply (trans_k k' swk lk); auto|]. exists lv. rewrite D2 by lia. rewrite Nat.eqb_refl. exact Hll.
      + rewrite bt_find_remove by exact Hu. destruct (eqk k k') eqn:E2.
        * intros j e He. rewrite <- (eqk_false_trans k k' (fst e) E2). exact (Hgone _ _ He).
        * specialize (Ht k'). destruct (bt_find eqk (key2slot m) k') as [[k1 j]|].
          -- destruct Ht as (H1 & v1 & H2). split; [exact H1|]. exists v1.
             assert (Hji : j <> i). { intros ->. rewrite Hi in H2. injection H2 as <- <-. rewrite (trans_k k k0 k' Hk (sym_k _ _ H1)) in E2. discriminate. }
             assert (Hjl : j <> (List.length l - 1)%nat).
             { intros ->. rewrite Hll in H2. injection H2 as <- <-. rewrite (trans_k swk lk k' Hsw1 (sym_k _ _ H1)) in E3. discriminate. }
             pose proof (nth_lt _ _ _ H2). rewrite D2 by lia. destruct (Nat.eqb_spec j i); [lia|exact H2].
          -- intros j e He. apply Hdn in He. destruct He as [_ He]. exact (Ht _ _ He).
  Qed.

  (** * Calls *)
  Definition some_out {X} (f : X -> ret K V) (r : option (imap K V * X)) : option (imap K V * ret K V) :=
    match r with Some (m, x) => Some (m, f x) | None => None end.
  (** One call of the modelled API and what it returns. *)
  Definition step (m : imap K V) (c : call K V) : option (imap K V * ret K V) :=
    match c with
    | CInsert k v => some_out (fun r => (Some (fst r), None, snd r)) (m_insert eqk m k v)
    | CRemove k => some_out (fun r => match r with Some (i, k0, v) => (Some i, Some k0, Some v) | None => (None, None, None) end) (m_swap_remove eqk m k)
    | COrInsert k v => some_out (fun r => (None, None, Some r)) (m_or_insert eqk m k v)
    | CEntryInsert k v => some_out (fun r => (None, None, r)) (m_entry_insert eqk m k v)
    | CSet k v => some_out (fun r => (None, None, r)) (m_set eqk m k v)
    | CSetIndex i v => some_out (fun r => (None, None, r)) (Some (m_set_index m i v))
    | CClear => Some (m_clear m, (None, None, None))
    end.
  Fixpoint steps (m : imap K V) (cs : list (call K V)) : option (imap K V * list (ret K V)) :=
    match cs with
    | [] => Some (m, [])
    | c :: cs => match step m c with
                 | None => None
                 | Some (m1, r) => match steps m1 cs with None => None | Some (m2, rs) => Some (m2, r :: rs) end
                 end
    end.

  (** The same answer, keys up to the order's equality. *)
  Definition same_ret (a b : ret K V) : Prop :=
    let '(i, k, v) := a in let '(i', k', v') := b in
    i = i' /\ v = v' /\ match k, k' with Some x, Some y => eqk x y = true | None, None => True | _, _ => False end.

  Lemma step_ok m l c : good m l -> exists m' r, step m c = Some (m', r) /\ good m' (fst (ideal eqk l c)) /\ same_ret r (snd (ideal eqk l c)).
  Proof.
    intros Hg. destruct c as [k v|k|k v|k v|k v|i v|]; cbn [step ideal].
    - unfold m_insert. pose proof (good_find m l k Hg) as H. destruct (find eqk l k) as [[[i k0] v0]|] eqn:E; cbn [fst snd].
      + destruct H as (Hb & Hk & Hi & sk & Hs & Hsk). rewrite Hb, Hs. cbn [some_out fst snd]. eexists _, _. split; [reflexivity|].
        split; [|cbn; auto]. rewrite (put_some _ _ v _ _ _ E). exact (good_set _ _ _ _ _ _ _ Hg Hi Hk).
      + rewrite H. cbn [some_out fst snd]. eexists _, _. split; [reflexivity|]. rewrite (put_none _ _ v E).
        split; [apply good_push; auto|]. destruct Hg as [[Hl _ _ _] _]. cbn. rewrite Hl. auto.
    - destruct (find eqk l k) as [[[i k0] v0]|] eqn:E; cbn [fst snd].
      + destruct (good_remove _ _ _ _ _ _ Hg E) as (m' & rk & H1 & H2 & H3). rewrite H1. eexists _, _. split; [reflexivity|]. split; [exact H3|]. cbn. auto.
      + pose proof (good_find m l k Hg) as H. rewrite E in H. unfold m_swap_remove. rewrite H. eexists _, _. split; [reflexivity|].
        rewrite (drop_none _ _ E). split; [exact Hg|]. cbn; auto.
    - unfold m_or_insert. pose proof (good_find m l k Hg) as H. destruct (find eqk l k) as [[[i k0] v0]|] eqn:E; cbn [fst snd].
      + destruct H as (Hb & Hk & Hi & sk & Hs & Hsk). rewrite Hb, Hs. cbn [some_out]. eexists _, _. split; [reflexivity|]. split; [exact Hg|]. cbn; auto.
      + rewrite H. cbn [some_out]. eexists _, _. split; [reflexivity|]. rewrite (put_none _ _ v E). split; [apply good_push; auto|]. cbn; auto.
    - unfold m_entry_insert. pose proof (good_find m l k Hg) as H. destruct (find eqk l k) as [[[i k0] v0]|] eqn:E; cbn [fst snd value_of].
      + destruct H as (Hb & Hk & Hi & sk & Hs & Hsk). rewrite Hb, Hs. cbn [some_out]. eexists _, _. split; [reflexivity|].
        split; [|cbn; auto]. rewrite (put_some _ _ v _ _ _ E). exact (good_set _ _ _ _ _ _ _ Hg Hi (refl_k k0)).
      + rewrite H. cbn [some_out]. eexists _, _. split; [reflexivity|]. rewrite (put_none _ _ v E). split; [apply good_push; auto|]. cbn; auto.
    - unfold m_set. pose proof (good_find m l k Hg) as H. destruct (find eqk l k) as [[[i k0] v0]|] eqn:E; cbn [fst snd].
      + destruct H as (Hb & Hk & Hi & sk & Hs & Hsk). rewrite Hb, Hs. cbn [some_out]. eexists _, _. split; [reflexivity|].
        split; [|cbn; auto]. rewrite (put_some _ _ v _ _ _ E). exact (good_set _ _ _ _ _ _ _ Hg Hi Hsk).
      + rewrite H. cbn [some_out]. eexists _, _. split; [reflexivity|]. split; [exact Hg|cbn; auto].
    - unfold m_set_index. destruct Hg as [[Hl Hs Hd Ht] Hu]. destruct (nth_error (slots m) i) as [[sk sv]|] eqn:E; cbn [fst snd some_out].
      + destruct (nth_some l i) as [[k0 v0] Hi]; [rewrite <- Hl; exact (nth_lt _ _ _ E)|]. rewrite Hi, (put_at_set _ _ _ v _ Hi).
        destruct (Hs _ _ _ E Hi) as [H1 H2]. cbn in H1, H2. subst sv. eexists _, _. split; [reflexivity|].
        split; [|cbn; auto]. apply (good_set m l i k0 v0 sk v); auto. split; [constructor|]; auto.
      + apply nth_error_None in E. assert (Hn : nth_error l i = None) by (apply nth_error_None; lia). rewrite Hn, (put_at_none _ _ v Hn).
        eexists _, _. split; [reflexivity|]. split; [split; [constructor|]; auto|cbn; auto].
    - eexists _, _. split; [reflexivity|]. split; [exact good_new|cbn; auto].
  Qed.

  Lemma steps_ok cs : forall m l, good m l -> exists m' rs, steps m cs = Some (m', rs) /\ good m' (fst (ideals eqk l cs)) /\ Forall2 same_ret rs (snd (ideals eqk l cs)).
  Proof.
    induction cs as [|c cs IH]; intros m l Hg; cbn [steps ideals].
    - eexists _, _. split; [reflexivity|]. split; [exact Hg|constructor].
    - destruct (step_ok m l c Hg) as (m1 & r & H1 & H2 & H3). rewrite H1. destruct (ideal eqk l c) as [l1 r1]. cbn [fst snd] in *.
      destruct (IH m1 l1 H2) as (m2 & rs & H4 & H5 & H6). rewrite H4. destruct (ideals eqk l1 cs) as [l2 rs2]. cbn [fst snd] in *.
      eexists _, _. split; [reflexivity|]. split; [exact H5|]. constructor; auto.
  Qed.

  (** Everything that can be asked of a map. *)
  Record agrees (m : imap K V) (l : list (K * V)) : Prop := {
    ag_len : m_len m = List.length l;
    ag_contains : forall k, m_contains eqk m k = match find eqk l k with Some _ => true | None => false end;
    ag_get : forall k, m_get eqk m k = Some (value_of (find eqk l k));
    ag_key_value : forall k, m_get_key_value eqk m k = Some (match find eqk l k with Some (_, k0, v) => Some (k0, v) | None => None end);
    ag_full : forall k, m_get_full eqk m k = Some (find eqk l k);
    ag_index_of : forall k, m_get_index_of eqk m k = match find eqk l k with Some (i, _, _) => Some i | None => None end;
    ag_index : forall i, match m_get_index m i, nth_error l i with
                         | Some (k, v), Some (k0, v0) => eqk k k0 = true /\ v = v0
                         | None, None => True
                         | _, _ => False
                         end;
    ag_iter : Forall2 (fun a b => eqk (fst a) (fst b) = true /\ snd a = snd b) (m_iter m) l;
    ag_once : forall i j a b, nth_error l i = Some a -> nth_error l j = Some b -> eqk (fst a) (fst b) = true -> i = j }.

  Lemma good_agrees m l : good m l -> agrees m l.
  Proof.
    intros Hg. pose proof Hg as [[Hl Hs Hd Ht] Hu].
    constructor; try (intros k; pose proof (good_find m l k Hg) as H;
      unfold m_contains, m_get, m_get_key_value, m_get_full, m_get_index_of;
      destruct (find eqk l k) as [[[i k0] v0]|]; [destruct H as (Hb & _ & _ & sk & Hsi & _); rewrite Hb, ?Hsi; reflexivity|rewrite H; reflexivity]).
    - exact Hl.
    - intros i. unfold m_get_index. destruct (nth_error (slots m) i) as [[k v]|] eqn:E, (nth_error l i) as [[k0 v0]|] eqn:E2; auto.
      + destruct (Hs _ _ _ E E2). auto.
      + apply nth_lt in E. apply nth_error_None in E2. lia.
      + apply nth_lt in E2. apply nth_error_None in E. lia.
    - unfold m_iter. clear - Hl Hs. revert l Hl Hs. induction (slots m) as [|a sl IH]; intros [|b l] Hl Hs; try discriminate; constructor.
      + exact (Hs 0%nat _ _ eq_refl eq_refl).
      + apply IH; [cbn in Hl; lia|]. intros i. exact (Hs (S i)).
    - exact Hd.
  Qed.

  Lemma imap_ok cs : exists m rs, steps imap_new cs = Some (m, rs) /\
    Forall2 same_ret rs (snd (ideals eqk [] cs)) /\ agrees m (fst (ideals eqk [] cs)).
  Proof.
    destruct (steps_ok cs imap_new [] good_new) as (m & rs & H1 & H2 & H3). exists m, rs. split; [exact H1|]. split; [exact H3|apply good_agrees; exact H2].
  Qed.

  (** [extend] is [insert] again and again. *)
  Lemma extend_ok es : forall m l, good m l -> exists m', m_extend eqk m es = Some m' /\
    good m' (fold_left (fun l e => put eqk l (fst e) (snd e)) es l).
  Proof.
    induction es as [|[k v] es IH]; intros m l Hg; cbn [m_extend fold_left]; [eauto|].
    destruct (step_ok m l (CInsert k v) Hg) as (m1 & r & H1 & H2 & _). cbn [step ideal fst] in *.
    destruct (m_insert eqk m k v) as [[m2 x]|]; [|discriminate]. cbn [some_out] in H1. injection H1 as <- _. apply IH. exact H2.
  Qed.
  Lemma from_iter_ok es : exists m, m_extend eqk imap_new es = Some m /\ agrees m (fold_left (fun l e => put eqk l (fst e) (snd e)) es []).
  Proof. destruct (extend_ok es imap_new [] good_new) as (m & H1 & H2). exists m. split; [exact H1|apply good_agrees; exact H2]. Qed.
End Proofs.

(** When equal keys are identical the keys are the same everywhere. *)
Lemma agrees_exact {K V} (eqk : K -> K -> bool) (m : imap K V) l : (forall a b, eqk a b = true -> a = b) ->
  agrees eqk m l -> m_iter m = l /\ forall i, m_get_index m i = nth_error l i.
Proof.
  intros He [_ _ _ _ _ _ Hi Ht _]. split.
  - clear Hi. induction Ht as [|[k v] [k0 v0] sl l [H1 H2] _ IH]; [reflexivity|]. cbn in *. apply He in H1. rewrite H1, H2, IH. reflexivity.
  - intros i. specialize (Hi i). destruct (m_get_index m i) as [[k v]|], (nth_error l i) as [[k0 v0]|]; try easy.
    destruct Hi as [H1 ->]. apply He in H1. subst. reflexivity.
Qed.
Lemma imap_exact {K V} (eqk : K -> K -> bool) (cs : list (call K V)) : (forall a b, eqk a b = true <-> a = b) ->
  exists m rs, steps eqk imap_new cs = Some (m, rs) /\ rs = snd (ideals eqk [] cs) /\
    m_iter m = fst (ideals eqk [] cs) /\ forall i, m_get_index m i = nth_error (fst (ideals eqk [] cs)) i.
Proof.
  intros He. destruct (imap_ok (V := V) eqk) with (cs := cs) as (m & rs & H1 & H2 & H3).
  - intros a. apply He. reflexivity.
  - intros a b H. apply He in H. apply He. auto.
  - intros a b c H H'. apply He in H, H'. apply He. congruence.
  - exists m, rs. split; [exact H1|]. split; [|apply agrees_exact with (eqk := eqk); [intros a b; apply He|exact H3]].
    clear H1 H3. induction H2 as [|[[i k] v] [[i' k'] v'] rs rs' (E1 & E2 & E3) _ IH]; [reflexivity|]. rewrite IH. subst.
    destruct k, k'; try easy. apply He in E3. congruence.
Qed.

Lemma key_kept_refuted : exists (eqk : (Z * Z) -> (Z * Z) -> bool) (cs : list (call (Z * Z) Z)),
  (forall a, eqk a a = true) /\ (forall a b, eqk a b = true -> eqk b a = true) /\
  (forall a b c, eqk a b = true -> eqk b c = true -> eqk a c = true) /\
  exists m rs, steps eqk imap_new cs = Some (m, rs) /\
    exists k k' v, m_get_full eqk m k = Some (Some (0%nat, k, v)) /\ m_get_index m 0 = Some (k', v) /\ k <> k'.
Proof.
  exists (fun a b => fst a =? fst b), [CInsert (1, 0) 5; CInsert (1, 1) 6].
  split; [intros a; apply Z.eqb_refl|]. split; [intros a b H; rewrite Z.eqb_sym; exact H|].
  split; [intros a b c H H'; apply Z.eqb_eq in H, H'; apply Z.eqb_eq; congruence|].
  eexists _, _. split; [vm_compute; reflexivity|]. exists (1, 0), (1, 1), 6. split; [reflexivity|]. split; [reflexivity|discriminate].
Qed.
