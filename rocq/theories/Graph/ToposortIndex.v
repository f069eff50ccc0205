(** The sort on indices: counts of remaining edges, and the order they give. *)
From Coq Require Import ZArith Lia List Bool Arith Relations Permutation.
From Verif Require Import Base.Prelude Names.Kebab Graph.Toposort.
Import ListNotations.
Open Scope nat_scope.

Definition st (states : list state) i := nth i states (State 0 []).
Definition rem states i := outbound_remaining (st states i).
Definition rdeps states i := reverse_deps (st states i).
Definition cnt (l : list nat) x := count_occ Nat.eq_dec l x.
(** The targets of node [i]. *)
Definition tg (G : list (list nat)) i := nth i G [].
Definition inb x (l : list nat) := existsb (Nat.eqb x) l.
Lemma inb_In x l : inb x l = true <-> In x l.
Proof.
  unfold inb. rewrite existsb_exists. split.
  - intros (y & I & E). apply Nat.eqb_eq in E. now subst.
  - intros I. exists x. split; [exact I|apply Nat.eqb_refl].
Qed.
Lemma inb_out x l : inb x l = false <-> ~ In x l.
Proof. rewrite <- inb_In. destruct (inb x l); split; congruence. Qed.
(** The edges of [i] to nodes which are not in [ord]. *)
Definition waits G ord i := List.length (filter (fun j => negb (inb j ord)) (tg G i)).

Lemma update_length {A} (f : A -> A) l : forall i, List.length (update l i f) = List.length l.
Proof. induction l as [|x l IH]; intros [|i]; cbn; auto. Qed.
Lemma update_nth {A} (f : A -> A) d l : forall i j, i < List.length l ->
  nth j (update l i f) d = if j =? i then f (nth i l d) else nth j l d.
Proof.
  induction l as [|x l IH]; intros i j L; [cbn in L; lia|].
  destruct i as [|i], j as [|j]; cbn; try reflexivity.
  cbn in L. rewrite IH by lia. reflexivity.
Qed.
Lemma update_nth_none {A} (f : A -> A) l : forall i, List.length l <= i -> update l i f = l.
Proof. induction l as [|x l IH]; intros [|i] L; cbn in *; try lia; auto. now rewrite IH by lia. Qed.

Lemma cnt_app a b x : cnt (a ++ b) x = cnt a x + cnt b x.
Proof. apply count_occ_app. Qed.
Lemma cnt_one i x : cnt [i] x = if x =? i then 1 else 0.
Proof. unfold cnt. cbn. destruct (Nat.eq_dec i x) as [->|N]; [now rewrite Nat.eqb_refl|]. destruct (Nat.eqb_spec x i); congruence. Qed.
Lemma cnt_In l x : In x l <-> cnt l x > 0.
Proof. apply count_occ_In. Qed.
Lemma cnt_cons i l x : cnt (i :: l) x = (if x =? i then 1 else 0) + cnt l x.
Proof. change (i :: l) with ([i] ++ l). now rewrite cnt_app, cnt_one. Qed.

Lemma waits_add G ord p i : ~ In p ord -> waits G ord i = waits G (ord ++ [p]) i + cnt (tg G i) p.
Proof.
  intros N. unfold waits. induction (tg G i) as [|t l IH]; [reflexivity|].
  rewrite cnt_cons. cbn [filter].
  assert (inb t (ord ++ [p]) = inb t ord || (t =? p)) as E.
  { unfold inb. rewrite existsb_app. cbn. now rewrite orb_false_r. }
  rewrite E. destruct (Nat.eqb_spec p t) as [<-|D].
  - apply inb_out in N. rewrite N, Nat.eqb_refl. cbn. lia.
  - destruct (Nat.eqb_spec t p); [congruence|]. destruct (inb t ord); cbn; lia.
Qed.
Lemma waits_zero G ord i : waits G ord i = 0 <-> (forall j, In j (tg G i) -> In j ord).
Proof.
  unfold waits. split.
  - intros E j I. apply inb_In. destruct (inb j ord) eqn:B; [reflexivity|].
    assert (In j (filter (fun j => negb (inb j ord)) (tg G i))) as F by (apply filter_In; rewrite B; auto).
    destruct (filter _ _); [destruct F|discriminate].
  - intros A. destruct (filter _ _) as [|j f] eqn:F; [reflexivity|exfalso].
    assert (In j (j :: f)) as I by now left. rewrite <- F in I. apply filter_In in I. destruct I as (I & B).
    apply A, inb_In in I. rewrite I in B. discriminate.
Qed.
Lemma waits_nil G i : waits G [] i = List.length (tg G i).
Proof. unfold waits. induction (tg G i) as [|t l IH]; cbn; [reflexivity|]. now f_equal. Qed.

Record Inv (G : list (list nat)) (rs : list nat) (states : list state) (heap ord : list nat) : Prop := {
  inv_len : List.length states = List.length G;
  inv_nodup : NoDup (ord ++ heap);
  inv_lt : forall i, In i (ord ++ heap) -> i < List.length G;
  inv_rem : forall i, rem states i = waits G ord i + cnt rs i;
  inv_zero : forall i, i < List.length G -> (rem states i = 0 <-> In i (ord ++ heap));
  inv_rev : forall j, ~ In j ord -> forall i, cnt (rdeps states j) i = cnt (tg G i) j }.

Lemma rem_update states i f j : i < List.length states ->
  rem (update states i f) j = if j =? i then outbound_remaining (f (st states i)) else rem states j.
Proof. intros L. unfold rem, st. rewrite update_nth by exact L. destruct (j =? i); reflexivity. Qed.
Lemma rdeps_update states i f j : i < List.length states ->
  rdeps (update states i f) j = if j =? i then reverse_deps (f (st states i)) else rdeps states j.
Proof. intros L. unfold rdeps, st. rewrite update_nth by exact L. destruct (j =? i); reflexivity. Qed.

Lemma NoDup_snoc {A} (l : list A) x : NoDup l -> ~ In x l -> NoDup (l ++ [x]).
Proof. intros N F. apply (Permutation_NoDup (l := x :: l)); [apply Permutation_cons_append|now constructor]. Qed.

Lemma release_inv G : forall rs states heap ord, Inv G rs states heap ord ->
  exists states' heap', release rs states heap = Some (states', heap') /\ Inv G [] states' heap' ord.
Proof.
  induction rs as [|i rs IH]; intros states heap ord V; [exists states, heap; split; [reflexivity|exact V]|].
  cbn [release].
  assert (rem states i > 0) as R by (rewrite (inv_rem _ _ _ _ _ V), cnt_cons, Nat.eqb_refl; lia).
  assert (i < List.length states) as L.
  { destruct (Nat.lt_ge_cases i (List.length states)) as [|G']; [assumption|]. unfold rem, st in R. rewrite nth_overflow in R by exact G'. cbn in R; lia. }
  destruct (nth_error states i) as [s|] eqn:E; [|apply nth_error_None in E; lia].
  assert (st states i = s) as S by (unfold st; now apply nth_error_nth).
  unfold rem in R. rewrite S in R. destruct (outbound_remaining s) as [|r] eqn:Er; [lia|].
  assert (rem states i = Datatypes.S r) as Ri by (unfold rem; rewrite S; exact Er).
  assert (i < List.length G) as LG by (rewrite <- (inv_len _ _ _ _ _ V); exact L).
  assert (~ In i (ord ++ heap)) as N by (intros I; apply (inv_zero _ _ _ _ _ V i LG) in I; lia).
  apply IH. destruct V as [V1 V2 V3 V4 V5 V6]. split.
  - rewrite update_length. exact V1.
  - destruct (r =? 0); [|exact V2]. rewrite app_assoc. now apply NoDup_snoc.
  - intros x I. destruct (r =? 0); [|now apply V3]. rewrite app_assoc in I. apply in_app_or in I.
    destruct I as [I|[<-|[]]]; [now apply V3|exact LG].
  - intros x. rewrite rem_update by exact L. specialize (V4 x). rewrite cnt_cons in V4. cbn.
    destruct (Nat.eqb_spec x i) as [e|D]; [|lia]. rewrite e in V4 |- *. lia.
  - intros x Lx. rewrite rem_update by exact L. cbn. destruct (Nat.eqb_spec x i) as [->|D].
    + destruct (Nat.eqb_spec r 0) as [->|Z].
      * split; [|reflexivity]. intros _. rewrite app_assoc. apply in_or_app. right. now left.
      * split; [lia|]. intros I. destruct (N I).
    + rewrite (V5 x Lx). destruct (r =? 0); [|reflexivity]. rewrite app_assoc. split; [intros I; apply in_or_app; now left|].
      intros I. apply in_app_or in I. destruct I as [I|[e|[]]]; [exact I|congruence].
  - intros j J x. rewrite rdeps_update by exact L. cbn. destruct (Nat.eqb_spec j i) as [->|D]; [|now apply V6].
    change (reverse_deps (st states i)) with (rdeps states i). now apply V6.
Qed.

Lemma fold_min_le t : forall x y, In y (x :: t) -> fold_left Nat.min t x <= y.
Proof.
  induction t as [|z t IH]; intros x y I; cbn [fold_left].
  - destruct I as [<-|[]]; lia.
  - destruct I as [<-|[<-|I]].
    + specialize (IH (Nat.min x z) (Nat.min x z) (or_introl eq_refl)). lia.
    + specialize (IH (Nat.min x z) (Nat.min x z) (or_introl eq_refl)). lia.
    + apply IH. now right.
Qed.
Lemma fold_min_In t : forall x, In (fold_left Nat.min t x) (x :: t).
Proof.
  induction t as [|z t IH]; intros x; cbn [fold_left]; [now left|].
  destruct (IH (Nat.min x z)) as [E|I]; [|right; now right].
  destruct (Nat.min_spec x z) as [[? M]|[? M]]; rewrite M in *; [left|right; left]; exact E.
Qed.
Lemma remove_one_perm i h : In i h -> Permutation h (i :: remove_one i h).
Proof.
  induction h as [|x h IH]; [intros []|]. intros I. cbn. destruct (Nat.eqb_spec x i) as [->|D]; [apply Permutation_refl|].
  destruct I as [E|I]; [congruence|]. etransitivity; [apply perm_skip, (IH I)|apply perm_swap].
Qed.
Lemma pop_spec h i h' : pop h = Some (i, h') -> Permutation h (i :: h') /\ (forall y, In y h -> i <= y).
Proof.
  unfold pop. destruct h as [|x t]; [discriminate|]. intros [= <- <-]. split.
  - apply remove_one_perm, fold_min_In.
  - apply fold_min_le.
Qed.
Lemma pop_none h : pop h = None -> h = [].
Proof. destruct h; [reflexivity|discriminate]. Qed.

(** Every node of [ord] comes after its targets, and is the first in source
    order of those which could have come there. *)
Definition greedy (G : list (list nat)) (ord : list nat) : Prop :=
  forall before a rest, ord = before ++ a :: rest ->
    (forall t, In t (tg G a) -> In t before) /\
    (forall i, i < List.length G -> ~ In i before -> (forall t, In t (tg G i) -> In t before) -> a <= i).
Lemma greedy_snoc G ord p : greedy G ord -> (forall t, In t (tg G p) -> In t ord) ->
  (forall i, i < List.length G -> ~ In i ord -> (forall t, In t (tg G i) -> In t ord) -> p <= i) -> greedy G (ord ++ [p]).
Proof.
  intros Gr A B before a rest E. destruct rest as [|z rest] using rev_ind.
  - apply app_inj_tail in E. destruct E as (<- & <-). split; assumption.
  - rewrite app_comm_cons, app_assoc in E. apply app_inj_tail in E. destruct E as (E & _). exact (Gr before a rest E).
Qed.

Lemma step_inv G states heap ord p heap' : Inv G [] states heap ord -> pop heap = Some (p, heap') ->
  Inv G (rdeps states p) (update states p take_reverse) heap' (ord ++ [p]).
Proof.
  intros [V1 V2 V3 V4 V5 V6] P. destruct (pop_spec _ _ _ P) as (Pm & _).
  assert (Permutation (ord ++ heap) ((ord ++ [p]) ++ heap')) as PP.
  { rewrite <- app_assoc. apply Permutation_app_head. exact Pm. }
  assert (In p heap) as Ip by (apply (Permutation_in p (Permutation_sym Pm)); now left).
  assert (p < List.length G) as Lp by (apply V3, in_or_app; now right).
  assert (p < List.length states) as Lp' by lia.
  assert (~ In p ord) as Np.
  { intros I. apply (Permutation_NoDup PP) in V2. rewrite <- app_assoc in V2. cbn in V2. apply NoDup_remove_2 in V2. apply V2, in_or_app. now left. }
  split.
  - rewrite update_length. exact V1.
  - exact (Permutation_NoDup PP V2).
  - intros i I. apply V3. exact (Permutation_in i (Permutation_sym PP) I).
  - intros i. rewrite rem_update by exact Lp'. rewrite (V6 p Np i). specialize (V4 i). rewrite (waits_add G ord p i Np) in V4.
    cbn [cnt count_occ] in V4. cbn. destruct (Nat.eqb_spec i p) as [->|D]; [|change (cnt [] i) with 0 in V4; lia].
    change (outbound_remaining (st states p)) with (rem states p). change (cnt [] p) with 0 in V4. lia.
  - intros i Li. rewrite rem_update by exact Lp'. cbn. rewrite <- PP.
    destruct (Nat.eqb_spec i p) as [->|D]; [|now apply V5]. exact (V5 p Lp).
  - intros j J i. rewrite rdeps_update by exact Lp'. cbn. destruct (Nat.eqb_spec j p) as [->|D].
    + exfalso. apply J, in_or_app. right. now left.
    + apply V6. intros I. apply J, in_or_app. now left.
Qed.

Lemma NoDup_bound n (l : list nat) : NoDup l -> (forall i, In i l -> i < n) -> List.length l <= n.
Proof.
  intros N B. rewrite <- (seq_length n 0). apply NoDup_incl_length; [exact N|]. intros i I. apply in_seq. specialize (B i I). lia.
Qed.

Definition name_of (g : graph) i := nth i (map fst g) [].

Lemma drain_inv (g : graph) G : List.length G = List.length g -> forall fuel states heap ord,
  Inv G [] states heap ord -> greedy G ord -> List.length g < fuel + List.length ord ->
  exists states' ord', drain fuel g states heap (map (name_of g) ord) = inr (states', map (name_of g) ord') /\
    Inv G [] states' [] ord' /\ greedy G ord'.
Proof.
  intros LG. induction fuel as [|fuel IH]; intros states heap ord V Gr F.
  { exfalso. assert (List.length (ord ++ heap) <= List.length G) by (apply NoDup_bound; [apply V|apply V]).
    rewrite app_length in *. lia. }
  cbn [drain]. destruct (pop heap) as [[p heap']|] eqn:P.
  2:{ apply pop_none in P. subst heap. exists states, ord. split; [reflexivity|]. split; assumption. }
  pose proof (step_inv _ _ _ _ _ _ V P) as V'. destruct (pop_spec _ _ _ P) as (Pm & Least).
  assert (In p heap) as Ip by (apply (Permutation_in p (Permutation_sym Pm)); now left).
  assert (p < List.length G) as Lp by (apply (inv_lt _ _ _ _ _ V), in_or_app; now right).
  assert (p < List.length states) as Lp' by (rewrite (inv_len _ _ _ _ _ V); exact Lp).
  destruct (nth_error g p) as [[node es]|] eqn:Eg; [|apply nth_error_None in Eg; lia].
  destruct (nth_error states p) as [s|] eqn:Es; [|apply nth_error_None in Es; lia].
  assert (reverse_deps s = rdeps states p) as -> by (unfold rdeps, st; now rewrite (nth_error_nth _ _ _ Es)).
  destruct (release_inv _ _ _ _ _ V') as (states' & heap'' & -> & V'').
  assert (node = name_of g p) as ->.
  { unfold name_of. erewrite nth_error_nth; [reflexivity|]. rewrite nth_error_map, Eg. reflexivity. }
  change [name_of g p] with (map (name_of g) [p]). rewrite <- map_app.
  apply IH; [exact V''| |rewrite app_length; cbn; lia].
  assert (rem states p = 0) as Zp by (apply (inv_zero _ _ _ _ _ V p Lp), in_or_app; now right).
  apply greedy_snoc; [exact Gr| |].
  - apply waits_zero. pose proof (inv_rem _ _ _ _ _ V p). change (cnt [] p) with 0 in *. lia.
  - intros i Li Ni A. apply Least. apply waits_zero in A.
    assert (rem states i = 0) as Zi by (rewrite (inv_rem _ _ _ _ _ V i), A; reflexivity).
    apply (inv_zero _ _ _ _ _ V i Li) in Zi. apply in_app_or in Zi. tauto.
Qed.

(** A greedy order is the only one. *)
Lemma greedy_unique G G' : List.length G = List.length G' -> (forall i t, In t (tg G i) <-> In t (tg G' i)) ->
  forall l l' before, List.length l = List.length l' -> NoDup (before ++ l) -> NoDup (before ++ l') ->
  (forall i, In i (before ++ l) -> i < List.length G) -> (forall i, In i (before ++ l') -> i < List.length G) ->
  greedy G (before ++ l) -> greedy G' (before ++ l') -> l = l'.
Proof.
  intros LG Same. induction l as [|a l IH]; intros [|b l'] before L N N' B B' Gr Gr'; cbn in L; try discriminate; [reflexivity|].
  destruct (Gr before a l eq_refl) as (Da & La). destruct (Gr' before b l' eq_refl) as (Db & Lb).
  assert (a = b) as <-.
  { apply Nat.le_antisymm.
    - apply La.
      + apply B', in_or_app; right; now left.
      + apply NoDup_remove_2 in N'. intros I. apply N', in_or_app; now left.
      + intros t I. apply Db, Same, I.
    - apply Lb.
      + rewrite <- LG. apply B, in_or_app; right; now left.
      + apply NoDup_remove_2 in N. intros I. apply N, in_or_app; now left.
      + intros t I. apply Da, Same, I. }
  f_equal. apply (IH l' (before ++ [a])); rewrite <- ?app_assoc; cbn; auto.
Qed.

(** Where every node has a target among the nodes, a cycle can be reached. *)
Lemma reach_cycle (E : nat -> nat -> Prop) (S : nat -> Prop) n :
  (forall x, S x -> x < n) -> (forall x, S x -> exists y, E x y /\ S y) ->
  forall x, S x -> exists c, clos_refl_trans nat E x c /\ clos_trans nat E c c.
Proof.
  intros Bd Nx x Sx.
  enough (forall m path h, n <= m + List.length path -> NoDup (h :: path) -> (forall y, In y (h :: path) -> S y /\ clos_refl_trans nat E y h) ->
    clos_refl_trans nat E x h -> exists c, clos_refl_trans nat E x c /\ clos_trans nat E c c) as H.
  { apply (H n [] x); [cbn; lia|constructor; [intros []|constructor]| |apply rt_refl]. intros y [<-|[]]. split; [exact Sx|apply rt_refl]. }
  induction m as [|m IH]; intros path h Lm N A R.
  - exfalso. assert (List.length (h :: path) <= n) by (apply NoDup_bound; [exact N|intros i I; apply Bd, A, I]). cbn in *. lia.
  - destruct (A h (or_introl eq_refl)) as (Sh & _). destruct (Nx h Sh) as (z & Ez & Sz).
    destruct (in_dec Nat.eq_dec z (h :: path)) as [I|I].
    + exists z. split; [eapply rt_trans; [exact R|now apply rt_step]|].
      destruct (A z I) as (_ & Q). apply clos_rt_rtn1 in Q.
      assert (forall w, clos_refl_trans nat E z w -> E w z -> clos_trans nat E z z) as K.
      { intros w Q' Ew. apply clos_rt_rt1n in Q'. revert Ew.
        assert (forall u, clos_refl_trans_1n nat E u w -> E w z -> clos_trans nat E u z) as K2.
        { intros u Qu. induction Qu as [u|u v w Euv Qv IHv]; intros Ew; [now apply t_step|]. eapply t_trans; [apply t_step, Euv|now apply IHv]. }
        now apply K2. }
      apply (K h); [now apply clos_rtn1_rt|exact Ez].
    + apply (IH (h :: path) z); [cbn in *; lia|now constructor| |eapply rt_trans; [exact R|now apply rt_step]].
      intros y [<-|J]; [split; [exact Sz|apply rt_refl]|]. destruct (A y J) as (Sy & Ry). split; [exact Sy|].
      eapply rt_trans; [exact Ry|now apply rt_step].
Qed.
