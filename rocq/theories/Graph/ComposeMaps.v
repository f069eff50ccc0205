(** Facts about the maps. *)
From Coq Require Import ZArith Lia List Bool Arith Permutation.
From Verif Require Import Base.Prelude Names.Kebab Graph.Compose.
Import ListNotations.
Open Scope nat_scope.

Section Maps.
Context {K V : Type} (eqd : forall a b : K, {a = b} + {a <> b}).
Notation look := (lookup eqd).
Lemma lookup_In k (l : list (K * V)) v : look k l = Some v -> In (k, v) l.
Proof.
  induction l as [|[k' v'] l IH]; cbn; [discriminate|]. destruct (eqd k k') as [->|N]; [intros [= ->]; now left|right; now apply IH].
Qed.
Lemma lookup_iff k (l : list (K * V)) v : NoDup (map fst l) -> (look k l = Some v <-> In (k, v) l).
Proof.
  intros N. split; [apply lookup_In|]. induction l as [|[k' v'] l IH]; cbn; [intros []|].
  inversion N as [|? ? N1 N2]; subst. intros [[= -> ->]|I].
  - destruct (eqd k k); congruence.
  - destruct (eqd k k') as [->|D]; [|now apply IH]. exfalso. apply N1. apply in_map_iff. now exists (k', v).
Qed.
Lemma lookup_none k (l : list (K * V)) : look k l = None <-> ~ In k (map fst l).
Proof.
  induction l as [|[k' v'] l IH]; cbn; [tauto|]. destruct (eqd k k') as [->|D].
  - split; [discriminate|]. intros N. destruct N. now left.
  - rewrite IH. split; [|tauto]. intros N [E|I]; [congruence|tauto].
Qed.
Lemma lookup_key k (l : list (K * V)) : In k (map fst l) <-> exists v, look k l = Some v.
Proof.
  split.
  - intros I. destruct (look k l) as [v|] eqn:E; [now exists v|]. apply lookup_none in E. now destruct E.
  - intros (v & E). apply lookup_In in E. apply in_map_iff. now exists (k, v).
Qed.
Lemma lookup_insert j k v (l : list (K * V)) : look j (insert eqd k v l) = if eqd j k then Some v else look j l.
Proof.
  induction l as [|[k' v'] l IH]; cbn.
  - destruct (eqd j k); reflexivity.
  - destruct (eqd k k') as [->|D]; cbn.
    + destruct (eqd j k'); reflexivity.
    + rewrite IH. destruct (eqd j k') as [->|D']; [|reflexivity]. destruct (eqd k' k); [congruence|reflexivity].
Qed.
Lemma insert_keys k v (l : list (K * V)) : map fst (insert eqd k v l) = if in_dec eqd k (map fst l) then map fst l else map fst l ++ [k].
Proof.
  induction l as [|[k' v'] l IH]; [reflexivity|]. cbn [insert fst]. destruct (eqd k k') as [->|D].
  - cbn [map fst]. destruct (in_dec eqd k' (k' :: map fst l)) as [|N]; [reflexivity|destruct N; now left].
  - cbn [map fst]. rewrite IH. destruct (in_dec eqd k (map fst l)) as [I|N], (in_dec eqd k (k' :: map fst l)) as [I'|N']; try reflexivity.
    + destruct N'. now right.
    + destruct I' as [E|E]; [congruence|destruct (N E)].
Qed.
Lemma insert_nodup k v (l : list (K * V)) : NoDup (map fst l) -> NoDup (map fst (insert eqd k v l)).
Proof.
  intros N. rewrite insert_keys. destruct (in_dec eqd k (map fst l)) as [|I]; [exact N|].
  apply (Permutation_NoDup (l := k :: map fst l)); [apply Permutation_cons_append|now constructor].
Qed.
Lemma lookup_perm k (l l' : list (K * V)) : NoDup (map fst l) -> Permutation l l' -> look k l' = look k l.
Proof.
  intros N P. assert (NoDup (map fst l')) as N' by (eapply Permutation_NoDup; [apply Permutation_map, P|exact N]).
  destruct (look k l) as [v|] eqn:E.
  - apply lookup_iff; [exact N'|]. apply lookup_iff in E; [|exact N]. eapply Permutation_in; eassumption.
  - apply lookup_none. apply lookup_none in E. intros I. apply E. eapply Permutation_in; [apply Permutation_map, Permutation_sym, P|exact I].
Qed.
Lemma lookup_filter k (P : K -> bool) (l : list (K * V)) : look k (filter (fun e => P (fst e)) l) = if P k then look k l else None.
Proof.
  induction l as [|[k' v'] l IH]; cbn; [now destruct (P k)|]. destruct (P k') eqn:E; cbn.
  - destruct (eqd k k') as [->|D]; [now rewrite E|exact IH].
  - rewrite IH. destruct (P k) eqn:E'; [|reflexivity]. destruct (eqd k k'); [congruence|reflexivity].
Qed.
End Maps.
Lemma filter_nodup_map {A B} (f : A -> B) (p : A -> bool) l : NoDup (map f l) -> NoDup (map f (filter p l)).
Proof.
  induction l as [|x l IH]; cbn; [auto|]. inversion 1 as [|? ? N1 N2]; subst. destruct (p x); [|now apply IH]. cbn. constructor; [|now apply IH].
  intros I. apply N1. apply in_map_iff in I. destruct I as (y & E & I). apply filter_In in I. apply in_map_iff. exists y. tauto.
Qed.

Lemma swap_remove_perm {A} (p : A -> bool) l : (forall x, In x l -> p x = false) /\ swap_remove p l = l \/
  exists x, p x = true /\ Permutation l (x :: swap_remove p l).
Proof.
  induction l as [|x l IH]; cbn; [left; split; [intros ? []|reflexivity]|]. destruct (p x) eqn:E.
  - right. exists x. split; [exact E|]. apply perm_skip. destruct (rev l) as [|y r] eqn:R.
    + apply (f_equal (@rev A)) in R. rewrite rev_involutive in R. now subst.
    + apply (f_equal (@rev A)) in R. rewrite rev_involutive in R. cbn in R. subst l. symmetry. apply Permutation_cons_append.
  - destruct IH as [(A0 & E0)|(y & Py & P)].
    + left. split; [intros z [<-|I]; [exact E|now apply A0]|now rewrite E0].
    + right. exists y. split; [exact Py|]. etransitivity; [apply perm_skip, P|apply perm_swap].
Qed.
Lemma swap_remove_filter {A K} (key : A -> K) (p : A -> bool) l : NoDup (map key l) -> (forall x y, p x = true -> (p y = true <-> key y = key x)) ->
  Permutation (swap_remove p l) (filter (fun x => negb (p x)) l).
Proof.
  intros N U. destruct (swap_remove_perm p l) as [(A0 & ->)|(x & Px & P)].
  - assert (filter (fun x => negb (p x)) l = l) as ->; [|reflexivity].
    clear - A0. induction l as [|x l IH]; [reflexivity|]. cbn. rewrite (A0 x) by now left. cbn. f_equal. apply IH. intros y I. apply A0. now right.
  - assert (Permutation (filter (fun x => negb (p x)) l) (filter (fun x => negb (p x)) (x :: swap_remove p l))) as ->.
    { clear - P. revert P. generalize (x :: swap_remove p l). intros l2 P. induction P as [|a l l' P IH|a b l|l l2 l3 P1 IH1 P2 IH2]; cbn.
      - constructor.
      - destruct (p a); cbn; auto.
      - destruct (p a), (p b); cbn; auto. apply perm_swap.
      - etransitivity; eassumption. }
    cbn. rewrite Px. cbn.
    assert (forall y, In y (swap_remove p l) -> p y = false) as F.
    { intros y I. destruct (p y) eqn:Py; [exfalso|reflexivity]. apply (U x y Px) in Py.
      apply (Permutation_map key), Permutation_NoDup in P; [|exact N]. cbn in P. inversion P as [|? ? N1 _]; subst. apply N1. rewrite <- Py. now apply in_map. }
    clear - F. induction (swap_remove p l) as [|y m IH]; [constructor|]. cbn. rewrite (F y) by now left. cbn. apply perm_skip, IH. intros z I. apply F. now right.
Qed.
Lemma is_key_spec {K V} eqd (k : K) (e : K * V) : is_key eqd k e = true <-> fst e = k.
Proof. unfold is_key. destruct (eqd k (fst e)); split; congruence. Qed.
Lemma lookup_remove {K V} eqd j (k : K) (l : list (K * V)) : NoDup (map fst l) ->
  lookup eqd j (swap_remove (is_key eqd k) l) = if eqd j k then None else lookup eqd j l.
Proof.
  intros N. erewrite lookup_perm; [| |apply Permutation_sym, (swap_remove_filter fst)].
  - transitivity (lookup eqd j (filter (fun e => (fun x => negb (if eqd k x then true else false)) (fst e)) l)).
    + f_equal.
    + rewrite (lookup_filter eqd j (fun x => negb (if eqd k x then true else false)) l). destruct (eqd j k) as [e|D], (eqd k j) as [e'|D']; try congruence; try reflexivity.
  - now apply filter_nodup_map.
  - exact N.
  - intros x y Px. apply is_key_spec in Px. rewrite is_key_spec. now rewrite Px.
Qed.
Lemma remove_nodup {K V} eqd (k : K) (l : list (K * V)) : NoDup (map fst l) -> NoDup (map fst (swap_remove (is_key eqd k) l)).
Proof.
  intros N. eapply Permutation_NoDup; [apply Permutation_map, Permutation_sym, (swap_remove_filter fst)|].
  - exact N.
  - intros x y Px. apply is_key_spec in Px. rewrite is_key_spec. now rewrite Px.
  - now apply filter_nodup_map.
Qed.
Lemma remove_elem (i : nat) l : NoDup l -> NoDup (swap_remove (Nat.eqb i) l) /\ (forall j, In j (swap_remove (Nat.eqb i) l) <-> In j l /\ j <> i).
Proof.
  intros N. assert (Permutation (swap_remove (Nat.eqb i) l) (filter (fun x => negb (Nat.eqb i x)) l)) as P.
  { apply (swap_remove_filter (fun x => x)); [now rewrite map_id|]. intros x y Px. apply Nat.eqb_eq in Px. rewrite Nat.eqb_eq. lia. }
  split.
  - eapply Permutation_NoDup; [symmetry; exact P|]. now apply NoDup_filter.
  - intros j. rewrite P, filter_In, negb_true_iff, Nat.eqb_neq. intuition congruence.
Qed.
Lemma existsb_In i l : existsb (Nat.eqb i) l = true <-> In i l.
Proof. rewrite existsb_exists. split; [intros (x & I & E); apply Nat.eqb_eq in E; now subst|intros I; exists i; split; [exact I|apply Nat.eqb_refl]]. Qed.
Lemma existsb_out i l : existsb (Nat.eqb i) l = false <-> ~ In i l.
Proof. rewrite <- existsb_In. destruct (existsb (Nat.eqb i) l); split; congruence. Qed.
