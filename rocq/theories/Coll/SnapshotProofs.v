From Verif.Base Require Import Prelude Search.
From Verif.Coll Require Import SnapshotModel.

Section Snapshot.
  Context {A : Type}.
  Implicit Types (s : slist A) (l : list A).

  (** Chunks laid end to end from position [n], none of them empty. *)
  Fixpoint chunks (n : nat) (sns : list (snap A)) : Prop :=
    match sns with
    | [] => True
    | sn :: sns => prior_types sn = n /\ items sn <> [] /\ chunks (n + List.length (items sn)) sns
    end.
  Definition chunk_items (sns : list (snap A)) : list A := List.concat (map items sns).

  Record stands s l : Prop := {
    sd_chunks : chunks 0 (snapshots s);
    sd_total : snapshots_total s = List.length (chunk_items (snapshots s));
    sd_list : l = chunk_items (snapshots s) ++ cur s }.

  Lemma chunks_app a : forall n b, chunks n (a ++ b) <-> chunks n a /\ chunks (n + List.length (chunk_items a)) b.
  Proof.
    induction a as [|sn a IH]; intros n b; cbn [app chunks chunk_items map List.concat List.length]; [rewrite Nat.add_0_r; tauto|].
    rewrite IH. rewrite app_length. unfold chunk_items. rewrite Nat.add_assoc. tauto.
  Qed.
  Lemma chunks_ge sns : forall n i sn, chunks n sns -> nth_error sns i = Some sn -> (n <= prior_types sn)%nat.
  Proof.
    induction sns as [|x sns IH]; intros n [|i] sn H Hi; cbn in *; try discriminate.
    - injection Hi as <-. lia.
    - destruct H as (H1 & H2 & H3). apply (IH _ _ _ H3) in Hi. lia.
  Qed.
  Lemma chunks_increasing sns : forall n, chunks n sns -> increasing (fun sn => Z.of_nat (prior_types sn)) sns.
  Proof.
    induction sns as [|x sns IH]; intros n H [|i] [|j] y z Hij Hy Hz; cbn [nth_error chunks] in *; try discriminate; try lia.
    - injection Hy as <-. destruct H as (H1 & H2 & H3). pose proof (chunks_ge _ _ _ _ H3 Hz).
      assert (0 < List.length (items x))%nat by (destruct (items x); [congruence|cbn; lia]). lia.
    - destruct H as (H1 & H2 & H3). apply (IH _ H3 i j); auto. lia.
  Qed.

  (** The chunk that holds an index: the last one starting at or before it. *)
  Lemma chunk_lookup sns : forall n idx i, chunks n sns -> (n <= idx < n + List.length (chunk_items sns))%nat ->
    (forall j sn, (j <= i)%nat -> nth_error sns j = Some sn -> (prior_types sn <= idx)%nat) ->
    (forall j sn, (i < j)%nat -> nth_error sns j = Some sn -> (idx < prior_types sn)%nat) ->
    (i < List.length sns)%nat ->
    exists sn, nth_error sns i = Some sn /\ (prior_types sn <= idx)%nat /\
      nth_error (items sn) (idx - prior_types sn) = nth_error (chunk_items sns) (idx - n) /\
      (idx - prior_types sn < List.length (items sn))%nat.
  Proof.
    induction sns as [|x sns IH]; intros n idx i H Hr Hlo Hhi Hi; [cbn in Hi; lia|].
    cbn [chunks] in H. destruct H as (H1 & H2 & H3). unfold chunk_items in *. cbn [map List.concat] in *. rewrite app_length in Hr.
    assert (Hx : (idx < n + List.length (items x))%nat -> i = 0%nat).
    { intros Hlt. destruct i as [|i]; [reflexivity|]. exfalso. cbn [List.length] in Hi.
      destruct (nth_error sns i) as [sn|] eqn:E; [|apply nth_error_None in E; lia].
      pose proof (chunks_ge _ _ _ _ H3 E). pose proof (Hlo (S i) sn (le_n _) E). lia. }
    destruct (Nat.lt_ge_cases idx (n + List.length (items x))) as [Hlt|Hge].
    - rewrite (Hx Hlt) in *. exists x. split; [reflexivity|]. rewrite H1. split; [lia|].
      rewrite nth_error_app1 by lia. split; [reflexivity|lia].
    - destruct i as [|i].
      + exfalso. destruct sns as [|y sns]; [cbn in Hr; lia|]. cbn [chunks] in H3. destruct H3 as (H3 & _).
        pose proof (Hhi 1%nat y ltac:(lia) eq_refl). lia.
      + destruct (IH (n + List.length (items x))%nat idx i H3) as (sn & E & Hle & Hn & Hl).
        * split; [exact Hge|lia].
        * intros j sn Hj Hs. apply (Hlo (S j)); [lia|exact Hs].
        * intros j sn Hj Hs. apply (Hhi (S j)); [lia|exact Hs].
        * cbn [List.length] in Hi. lia.
        * exists sn. split; [exact E|]. split; [exact Hle|]. split; [|exact Hl]. rewrite Hn.
          rewrite nth_error_app2 by lia. f_equal. lia.
  Qed.

  Lemma stands_get s l i : stands s l -> get s i = Some (nth_error l i).
  Proof.
    intros [Hc Ht Hl]. unfold get. destruct (snapshots_total s <=? i)%nat eqn:E.
    - apply Nat.leb_le in E. rewrite Hl, nth_error_app2 by lia. rewrite Ht. reflexivity.
    - apply Nat.leb_gt in E. rewrite Hl, nth_error_app1 by lia.
      pose proof (binary_search_ok _ _ (Z.of_nat i) (chunks_increasing _ _ Hc)) as Hb.
      assert (Hgo : forall k, (k < List.length (snapshots s))%nat ->
        (forall j sn, (j <= k)%nat -> nth_error (snapshots s) j = Some sn -> (prior_types sn <= i)%nat) ->
        (forall j sn, (k < j)%nat -> nth_error (snapshots s) j = Some sn -> (i < prior_types sn)%nat) ->
        match nth_error (snapshots s) k with
        | Some sn => if (i <? prior_types sn)%nat then None
            else match nth_error (items sn) (i - prior_types sn) with Some x => Some (Some x) | None => None end
        | None => None
        end = Some (nth_error (chunk_items (snapshots s)) i)).
      { intros k Hk H1 H2. destruct (chunk_lookup (snapshots s) 0 i k Hc ltac:(lia) H1 H2 Hk) as (sn & -> & Hle & Hn & Hlt).
        replace (i <? prior_types sn)%nat with false by (symmetry; apply Nat.ltb_ge; lia).
        rewrite Nat.sub_0_r in Hn. rewrite <- Hn. destruct (nth_error (items sn) _) as [x|] eqn:Ex; [reflexivity|apply nth_error_None in Ex; lia]. }
      destruct (binary_search _ (snapshots s) (Z.of_nat i)) as [k|k].
      + destruct Hb as (sn & Hs & Hk). apply Hgo.
        * apply nth_error_Some. congruence.
        * intros j x Hj Hx. destruct (Nat.eq_dec j k) as [-> | Hne]; [replace x with sn by congruence; lia|].
          pose proof (chunks_increasing _ _ Hc j k x sn ltac:(lia) Hx Hs) as Hlt. cbn in Hlt. lia.
        * intros j x Hj Hx. pose proof (chunks_increasing _ _ Hc k j sn x Hj Hs Hx) as Hlt. cbn in Hlt. lia.
      + destruct Hb as (Hle & Hlo & Hhi). destruct k as [|k].
        * exfalso. destruct (snapshots s) as [|sn sns]; [cbn in Ht; lia|]. cbn [chunks] in Hc. destruct Hc as (H1 & _).
          pose proof (Hhi 0%nat sn (le_n _) eq_refl). lia.
        * apply Hgo; [lia| |].
          -- intros j x Hj Hx. pose proof (Hlo j x ltac:(lia) Hx). lia.
          -- intros j x Hj Hx. pose proof (Hhi j x ltac:(lia) Hx). lia.
  Qed.

  Lemma stands_empty : stands slist_empty [].
  Proof. constructor; reflexivity || exact I. Qed.
  Lemma stands_push s l x : stands s l -> stands (push s x) (l ++ [x]).
  Proof. intros [Hc Ht Hl]. constructor; cbn [push snapshots snapshots_total cur]; auto. rewrite Hl, app_assoc. reflexivity. Qed.
  Lemma stands_len s l : stands s l -> len s = List.length l.
  Proof. intros [Hc Ht Hl]. unfold len. rewrite Hl, app_length. lia. Qed.
  Lemma stands_truncate s l n : stands s l -> match truncate s n with
    | Some s' => stands s' (firstn n l) /\ (snapshots_total s <= n)%nat | None => (n < snapshots_total s)%nat end.
  Proof.
    intros [Hc Ht Hl]. unfold truncate. destruct (n <? snapshots_total s)%nat eqn:E; [apply Nat.ltb_lt; exact E|].
    apply Nat.ltb_ge in E. split; [|exact E]. constructor; cbn [snapshots snapshots_total cur]; auto.
    rewrite Hl, firstn_app. rewrite firstn_all2 by lia. rewrite Ht. reflexivity.
  Qed.
  Lemma stands_commit s l : stands s l -> stands (fst (commit s)) l /\ stands (snd (commit s)) l /\ snapshots_total (fst (commit s)) = List.length l.
  Proof.
    intros [Hc Ht Hl]. unfold commit. destruct (0 <? List.length (cur s))%nat eqn:E; cbn [fst snd snapshots snapshots_total cur].
    - apply Nat.ltb_lt in E.
      assert (Hc' : chunks 0 (snapshots s ++ [mkSnap (snapshots_total s) (cur s)])).
      { apply chunks_app. split; [exact Hc|]. cbn. split; [exact Ht|]. split; [destruct (cur s); [cbn in E; lia|discriminate]|exact I]. }
      assert (Hi : chunk_items (snapshots s ++ [mkSnap (snapshots_total s) (cur s)]) = l).
      { unfold chunk_items. rewrite map_app, concat_app. cbn. rewrite app_nil_r. rewrite Hl. reflexivity. }
      assert (Htt : (snapshots_total s + List.length (cur s))%nat = List.length l) by (rewrite Hl, app_length; lia).
      split; [|split; [|exact Htt]]; constructor; cbn [snapshots snapshots_total cur]; rewrite ?Hi, ?app_nil_r; auto.
    - apply Nat.ltb_ge in E. assert (Hn : cur s = []) by (destruct (cur s); [reflexivity|cbn in E; lia]).
      rewrite Hn, app_nil_r in Hl. split; [constructor; auto; rewrite Hn, app_nil_r; exact Hl|].
      split; [constructor; cbn [snapshots snapshots_total cur]; auto; rewrite app_nil_r; exact Hl|]. rewrite Hl. exact Ht.
  Qed.

  (** * Histories *)
  Inductive op := OPush (x : A) | OTruncate (n : nat) | OCommit.
  (** The list, and the clones handed out so far (latest first).  [None] is a panic. *)
  Fixpoint run (s : slist A) (clones : list (slist A)) (h : list op) : option (slist A * list (slist A)) :=
    match h with
    | [] => Some (s, clones)
    | OPush x :: h => run (push s x) clones h
    | OTruncate n :: h => match truncate s n with Some s => run s clones h | None => None end
    | OCommit :: h => let '(s', c) := commit s in run s' (c :: clones) h
    end.
  (** The same history on plain lists; [fixed] elements may not be truncated. *)
  Fixpoint plain (l : list A) (fixed : nat) (copies : list (list A)) (h : list op) : option (list A * list (list A)) :=
    match h with
    | [] => Some (l, copies)
    | OPush x :: h => plain (l ++ [x]) fixed copies h
    | OTruncate n :: h => if (n <? fixed)%nat then None else plain (firstn n l) fixed copies h
    | OCommit :: h => plain l (List.length l) (l :: copies) h
    end.

  Definition same (s : slist A) (l : list A) : Prop :=
    len s = List.length l /\ forall i, get s i = Some (nth_error l i).
  Lemma stands_same s l : stands s l -> same s l.
  Proof. intros H. split; [apply stands_len; exact H|]. intros i. apply stands_get. exact H. Qed.

  Lemma run_plain h : forall s l clones copies fixed, stands s l -> snapshots_total s = fixed -> Forall2 stands clones copies ->
    match run s clones h, plain l fixed copies h with
    | Some (s', cs), Some (l', ls) => same s' l' /\ Forall2 same cs ls
    | None, None => True
    | _, _ => False
    end.
  Proof.
    induction h as [|[x|n|] h IH]; intros s l clones copies fixed Hs Hf Hc; cbn [run plain].
    - split; [apply stands_same; exact Hs|]. clear - Hc. induction Hc; constructor; auto. apply stands_same. assumption.
    - apply IH; auto. apply stands_push. exact Hs.
    - pose proof (stands_truncate s l n Hs) as Ht. destruct (truncate s n) as [s'|] eqn:E.
      + destruct Ht as [Ht Hle]. destruct (n <? fixed)%nat eqn:En; [apply Nat.ltb_lt in En; lia|]. apply IH; auto.
        unfold truncate in E. destruct (n <? snapshots_total s)%nat; [discriminate|]. injection E as <-. exact Hf.
      + destruct (n <? fixed)%nat eqn:En; [exact I|]. apply Nat.ltb_ge in En. lia.
    - destruct (stands_commit s l Hs) as (H1 & H2 & H3). destruct (commit s) as [s' c]. cbn [fst snd] in *. apply IH; auto.
  Qed.

  Lemma snapshot_ok h : match run slist_empty [] h, plain [] 0 [] h with
    | Some (s', cs), Some (l', ls) => same s' l' /\ Forall2 same cs ls
    | None, None => True
    | _, _ => False
    end.
  Proof. apply run_plain; auto using stands_empty. Qed.
End Snapshot.
Arguments op : clear implicits.
