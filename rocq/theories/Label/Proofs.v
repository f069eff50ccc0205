(** Proofs about the resolution of labels and locals. *)
From Coq Require Import List Arith Bool Lia.
Import ListNotations.
From Verif.Label Require Import Model Spec.

Lemma find_some : forall x bs i n, find_label i x bs = Some n <-> i <= n /\ nth_error bs (n - i) = Some (Some x) /\ forall m, m < n - i -> nth_error bs m <> Some (Some x).
Proof.
  intros x bs. induction bs as [| b bs IH]; intros i n; simpl.
  - split; [discriminate |]. intros (_ & H & _). destruct (n - i); discriminate.
  - assert (Step : b <> Some x -> find_label (S i) x bs = Some n <-> i <= n /\ nth_error (b :: bs) (n - i) = Some (Some x) /\ forall m, m < n - i -> nth_error (b :: bs) m <> Some (Some x)).
    { intro B. rewrite IH. split.
      - intros (A & C & D). replace (n - i) with (S (n - S i)) by lia. split; [lia |]. split; [exact C |]. intros [| m] Hm; simpl; [congruence | apply D; lia].
      - intros (A & C & D). destruct (n - i) as [| q] eqn:E; simpl in C; [congruence |]. split; [lia |]. replace (n - S i) with q by lia. split; [exact C |]. intros m Hm. apply (D (S m)). lia. }
    destruct b as [y |]; [| apply Step; discriminate]. destruct (Nat.eqb_spec x y) as [-> | N]; [| apply Step; congruence]. split.
    + intro H. injection H as <-. rewrite Nat.sub_diag. split; [lia |]. split; [reflexivity | intros m Hm; lia].
    + intros (A & C & D). destruct (n - i) as [| q] eqn:E; [f_equal; lia |]. exfalso. apply (D 0); [lia | reflexivity].
Qed.
Lemma label_ok : forall bs i j, resolve_label bs i = Ok j <-> stands bs i j.
Proof.
  intros bs [n | x] j; simpl; [split; congruence |]. destruct (find_label 0 x bs) as [n |] eqn:F.
  - pose proof (proj1 (find_some _ _ _ _) F) as (_ & A & B). rewrite Nat.sub_0_r in *. split; [intro H; injection H as <-; exists n; auto |].
    intros (m & -> & C & D). destruct (lt_eq_lt_dec n m) as [[L | ->] | L]; [destruct (D n L A) | reflexivity | destruct (B m L C)].
  - split; [discriminate |]. intros (m & -> & C & D). assert (G : find_label 0 x bs = Some m) by (apply find_some; rewrite Nat.sub_0_r; auto with arith). congruence.
Qed.
Lemma labels_ok : forall bs l l', resolve_labels bs l = Ok l' <-> Forall2 (stands bs) l l'.
Proof.
  intros bs l. induction l as [| i l IH]; intros l'; simpl.
  - split; [intro H; injection H as <-; constructor | intro H; inversion H; reflexivity].
  - destruct (resolve_label bs i) as [j | e] eqn:R; simpl.
    + apply label_ok in R. destruct (resolve_labels bs l) as [l1 | e] eqn:L; simpl.
      * split; [intro H; injection H as <-; constructor; [exact R | apply IH; reflexivity] |]. intro H. inversion H as [| ? j' ? l1' A B]; subst. apply label_ok in R, A. apply IH in B. congruence.
      * split; [discriminate |]. intro H. inversion H as [| ? j' ? l1' A B]; subst. apply IH in B. discriminate.
    + split; [discriminate |]. intro H. inversion H as [| ? j' ? l1' A B]; subst. apply label_ok in A. congruence.
Qed.
Lemma check_ok : forall e b bs, check_label e (b :: bs) = Ok tt <-> repeats e b.
Proof.
  intros [x |] b bs; simpl; unfold repeats; [| split; auto]. destruct b as [y |]; [destruct (Nat.eqb_spec x y) as [-> | N] |]; split; intro H; try discriminate; auto; destruct H as [H | H]; congruence.
Qed.

(** Locals. *)
Definition holds (l : list (option nat)) (s : namespace) : Prop :=
  ns_count s = length l /\ NoDup (names l) /\ forall x n, get x (ns_names s) = Some n <-> nth_error l n = Some (Some x).
Lemma in_names : forall x l, In x (names l) <-> In (Some x) l.
Proof.
  intros x l. induction l as [| [y |] l IH]; simpl; [tauto | |].
  - split; (intros [H | H]; [left; congruence | right; apply IH; exact H]).
  - rewrite IH. split; [auto | intros [H | H]; [discriminate | exact H]].
Qed.
Lemma names_app : forall a b, names (a ++ b) = names a ++ names b. Proof. intros a b. apply flat_map_app. Qed.
Lemma nodup_snoc : forall A (l : list A) x, NoDup (l ++ [x]) <-> NoDup l /\ ~ In x l.
Proof.
  intros A l x. pose proof (NoDup_Add (Add_app x l [])) as H. rewrite app_nil_r in H. exact H.
Qed.
Lemma nth_snoc : forall A (l : list A) x n y, nth_error (l ++ [x]) n = Some y <-> nth_error l n = Some y \/ (n = length l /\ x = y).
Proof.
  intros A l x n y. destruct (lt_dec n (length l)) as [L | L].
  - rewrite nth_error_app1 by exact L. split; [auto |]. intros [H | [H _]]; [exact H | lia].
  - rewrite nth_error_app2 by lia. rewrite (proj2 (nth_error_None l n)) by lia. destruct (n - length l) as [| q] eqn:E; simpl.
    + split; [intro H; injection H as <-; right; split; [lia | reflexivity] | intros [H | [_ ->]]; [discriminate | reflexivity]].
    + split; [destruct q; discriminate | intros [H | [H _]]; [discriminate | lia]].
Qed.
Lemma register_ok : forall l s x s', holds l s -> register x s = Ok s' -> holds (l ++ [x]) s'.
Proof.
  intros l s x s' (C & N & G) H. unfold register in H. destruct x as [x |].
  - destruct (get x (ns_names s)) as [n |] eqn:E; [discriminate |]. injection H as <-. split; [simpl; rewrite app_length; simpl; lia |]. split.
    + rewrite names_app. simpl. apply nodup_snoc. split; [exact N |]. intro I. apply in_names in I. apply In_nth_error in I. destruct I as (n & I). apply G in I. congruence.
    + intros z n. simpl. rewrite nth_snoc. destruct (Nat.eqb_spec z x) as [-> | D].
      * split; [intro H; injection H as <-; right; auto |]. intros [H | [-> _]]; [apply G in H; congruence | f_equal; exact C].
      * rewrite G. split; [auto |]. intros [H | [_ H]]; [exact H | congruence].
  - injection H as <-. split; [simpl; rewrite app_length; simpl; lia |]. split; [rewrite names_app, app_nil_r; exact N |]. intros z n. simpl. rewrite nth_snoc, G. split; [auto |]. intros [H | [_ H]]; [exact H | discriminate].
Qed.
Lemma register_all_ok : forall k l s, holds l s -> (NoDup (names (l ++ k)) /\ exists s', register_all k s = Ok s' /\ holds (l ++ k) s') \/ (~ NoDup (names (l ++ k)) /\ exists x, register_all k s = Err (DuplicateLocal x)).
Proof.
  induction k as [| x k IH]; intros l s H; simpl.
  - rewrite app_nil_r. left. split; [apply H | exists s; auto].
  - destruct (register x s) as [s1 | e] eqn:R; simpl.
    + pose proof (IH _ _ (register_ok _ _ _ _ H R)) as G. rewrite <- app_assoc in G. exact G.
    + right. destruct H as (C & N & G). unfold register in R. destruct x as [x |]; [| discriminate]. destruct (get x (ns_names s)) as [n |] eqn:E; [| discriminate]. injection R as <-. split; [| exists x; reflexivity].
      apply G in E. apply nth_error_In in E. apply in_names in E. rewrite names_app. simpl. intro D. apply NoDup_remove_2 in D. apply D. apply in_or_app. left. exact E.
Qed.
Lemma nodup_first : forall l x n m, NoDup (names l) -> nth_error l n = Some (Some x) -> nth_error l m = Some (Some x) -> n = m.
Proof.
  induction l as [| y l IH]; intros x n m N A B; [destruct n; discriminate |].
  assert (Ny : y = Some x -> forall q, nth_error l q <> Some (Some x)).
  { intros -> q C. simpl in N. inversion N as [| ? ? N1 _]; subst. apply N1. apply in_names. exact (nth_error_In _ _ C). }
  assert (N' : NoDup (names l)) by (destruct y; simpl in N; [inversion N; assumption | exact N]).
  destruct n as [| n], m as [| m]; simpl in A, B; [reflexivity | injection A as A; destruct (Ny A _ B) | injection B as B; destruct (Ny B _ A) |]. f_equal. exact (IH x n m N' A B).
Qed.
Lemma local_ok : forall l s i j, holds l s -> (resolve_local s i = Ok j <-> stands l i j).
Proof.
  intros l s [n | x] j (C & N & G); simpl; [split; congruence |]. destruct (get x (ns_names s)) as [n |] eqn:E.
  - apply G in E. split.
    + intro H. injection H as <-. exists n. split; [reflexivity |]. split; [exact E |]. intros m Hm F. pose proof (nodup_first _ _ _ _ N E F). lia.
    + intros (m & -> & F & _). rewrite (nodup_first _ _ _ _ N E F). reflexivity.
  - split; [discriminate |]. intros (m & -> & F & _). apply G in F. congruence.
Qed.

(** Bodies. *)
Section Body.
Variables (locals : list (option nat)) (s : namespace).
Hypothesis HS : holds locals s.
Lemma body_fwd : forall env c c', means locals env c c' -> forall t t', resolve_expr s env t = Ok t' -> resolve_expr s env (flat c t) = Ok (flat c' t').
Proof.
  intros env c c' M. induction M; intros t t' HT; simpl.
  - exact HT.
  - apply labels_ok in H. rewrite H. simpl. rewrite (IHM _ _ HT). reflexivity.
  - apply (local_ok _ _ _ _ HS) in H. rewrite H. simpl. rewrite (IHM _ _ HT). reflexivity.
  - rewrite (IHM _ _ HT). reflexivity.
  - rewrite (IHM1 _ (End e :: flat r' t')); [reflexivity |]. cbn [resolve_expr resolve_instr]. rewrite (proj2 (check_ok e x env) H). simpl. rewrite (IHM2 _ _ HT). reflexivity.
  - rewrite (IHM1 _ (Else y :: flat c' (End e :: flat r' t'))); [reflexivity |]. cbn [resolve_expr resolve_instr]. rewrite (proj2 (check_ok y x env) H). simpl.
    rewrite (IHM2 _ (End e :: flat r' t')); [reflexivity |]. cbn [resolve_expr resolve_instr]. rewrite (proj2 (check_ok e x env) H0). simpl. rewrite (IHM3 _ _ HT). reflexivity.
  - apply labels_ok in H. rewrite H. simpl. rewrite (IHM1 _ (End e :: flat r' t')); [reflexivity |]. cbn [resolve_expr resolve_instr]. rewrite (proj2 (check_ok e x env) H0). simpl. rewrite (IHM2 _ _ HT). reflexivity.
  - rewrite (IHM1 _ (Delegate l' :: flat r' t')); [reflexivity |]. cbn [resolve_expr resolve_instr tl]. apply label_ok in H. rewrite H. simpl. rewrite (IHM2 _ _ HT). reflexivity.
Qed.
Ltac step H := match type of H with
  | bind ?r _ = Ok _ => let E := fresh "E" in destruct r as [? | ?] eqn:E; simpl in H; [| discriminate H]
  end.
Lemma end_back : forall e x env t l, resolve_expr s (x :: env) (End e :: t) = Ok l -> exists l', l = End e :: l' /\ repeats e x /\ resolve_expr s env t = Ok l'.
Proof.
  intros e x env t l H. cbn [resolve_expr resolve_instr] in H. destruct (check_label e (x :: env)) as [[] | ?] eqn:E; simpl in H; [| discriminate]. apply check_ok in E. step H. injection H as <-. eauto.
Qed.
Lemma body_bwd : forall c env t l, resolve_expr s env (flat c t) = Ok l -> exists c' t', l = flat c' t' /\ means locals env c c' /\ resolve_expr s env t = Ok t'.
Proof.
  induction c as [| k ls r IHr | k i r IHr | n r IHr | k x b IHb e r IHr | k x b IHb y c IHc e r IHr | x cs b IHb e r IHr | k x b IHb g r IHr]; intros env t l H; simpl in H.
  - exists Nil, l. repeat split; [constructor | exact H].
  - destruct (resolve_labels env ls) as [ls' | ?] eqn:L; simpl in H; [| discriminate]. step H. injection H as <-. destruct (IHr _ _ _ E) as (r' & t' & -> & M & T). exists (Br k ls' r'), t'. apply labels_ok in L. repeat split; [constructor; assumption | exact T].
  - destruct (resolve_local s i) as [i' | ?] eqn:L; simpl in H; [| discriminate]. step H. injection H as <-. destruct (IHr _ _ _ E) as (r' & t' & -> & M & T). exists (Loc k i' r'), t'. apply (local_ok _ _ _ _ HS) in L. repeat split; [constructor; assumption | exact T].
  - step H. injection H as <-. destruct (IHr _ _ _ E) as (r' & t' & -> & M & T). exists (Oth n r'), t'. repeat split; [constructor; assumption | exact T].
  - step H. injection H as <-. destruct (IHb _ _ _ E) as (b' & t1 & -> & M & T). destruct (end_back _ _ _ _ _ T) as (t2 & -> & R & T2). destruct (IHr _ _ _ T2) as (r' & t' & -> & M' & T').
    exists (Blk k x b' e r'), t'. repeat split; [constructor; assumption | exact T'].
  - step H. injection H as <-. destruct (IHb _ _ _ E) as (b' & t1 & -> & M & T). cbn [resolve_expr resolve_instr] in T. destruct (check_label y (x :: env)) as [[] | ?] eqn:C; simpl in T; [| discriminate]. apply check_ok in C. step T. injection T as <-.
    destruct (IHc _ _ _ E0) as (c' & t2 & -> & Mc & Tc). destruct (end_back _ _ _ _ _ Tc) as (t3 & -> & R & T3). destruct (IHr _ _ _ T3) as (r' & t' & -> & M' & T'). exists (IfElse k x b' y c' e r'), t'. repeat split; [constructor; assumption | exact T'].
  - destruct (resolve_labels env cs) as [ls' | ?] eqn:L; simpl in H; [| discriminate]. step H. injection H as <-. apply labels_ok in L. destruct (IHb _ _ _ E) as (b' & t1 & -> & M & T). destruct (end_back _ _ _ _ _ T) as (t2 & -> & R & T2).
    destruct (IHr _ _ _ T2) as (r' & t' & -> & M' & T'). exists (Try x ls' b' e r'), t'. repeat split; [constructor; assumption | exact T'].
  - step H. injection H as <-. destruct (IHb _ _ _ E) as (b' & t1 & -> & M & T). cbn [resolve_expr resolve_instr tl] in T. destruct (resolve_label env g) as [g' | ?] eqn:L; simpl in T; [| discriminate]. step T. injection T as <-. apply label_ok in L.
    destruct (IHr _ _ _ E0) as (r' & t' & -> & M' & T'). exists (TryDelegate k x b' g' r'), t'. repeat split; [constructor; assumption | exact T'].
Qed.
End Body.
Lemma start_holds : holds [] (mkNs [] 0).
Proof. split; [reflexivity |]. split; [constructor |]. intros x n. simpl. destruct n; split; discriminate. Qed.
Lemma body_iff : forall locals c l, resolve_body locals (flat c []) = Ok l <-> NoDup (names locals) /\ exists c', l = flat c' [] /\ means locals [] c c'.
Proof.
  intros locals c l. unfold resolve_body. destruct (register_all_ok locals _ _ start_holds) as [(N & s & -> & H) | (N & x & ->)]; simpl in *.
  - split.
    + intro R. destruct (body_bwd _ _ H _ _ _ _ R) as (c' & t' & -> & M & T). simpl in T. injection T as <-. split; [exact N | exists c'; auto].
    + intros (_ & c' & -> & M). apply (body_fwd _ _ H _ _ _ M). reflexivity.
  - split; [discriminate | intros (C & _); contradiction].
Qed.

(** Any list of instructions: what is left are numbers, and numbers stay. *)
Lemma label_number : forall bs i j, resolve_label bs i = Ok j -> number j /\ forall bs', resolve_label bs' j = Ok j.
Proof. intros bs [n | x] j H; simpl in H; [injection H as <- | destruct (find_label 0 x bs) as [n |]; [injection H as <- | discriminate]]; (split; [exists n; reflexivity | reflexivity]). Qed.
Lemma labels_number : forall bs l l', resolve_labels bs l = Ok l' -> Forall number l' /\ forall bs', resolve_labels bs' l' = Ok l'.
Proof.
  intros bs l. induction l as [| i l IH]; intros l' H; simpl in H; [injection H as <-; split; [constructor | reflexivity] |].
  destruct (resolve_label bs i) as [j | ?] eqn:R; simpl in H; [| discriminate]. destruct (resolve_labels bs l) as [l1 | ?] eqn:L; simpl in H; [| discriminate]. injection H as <-.
  destruct (label_number _ _ _ R) as [A B]. destruct (IH _ eq_refl) as [C D]. split; [constructor; assumption |]. intro bs'. simpl. rewrite B. simpl. rewrite D. reflexivity.
Qed.
Lemma local_number : forall s i j, resolve_local s i = Ok j -> number j /\ resolve_local s j = Ok j.
Proof. intros s [n | x] j H; simpl in H; [injection H as <- | destruct (get x (ns_names s)) as [n |]; [injection H as <- | discriminate]]; (split; [exists n; reflexivity | reflexivity]). Qed.
Lemma instr_number : forall s bs i i' bs', resolve_instr s bs i = Ok (i', bs') -> resolved i' /\ resolve_instr s bs i' = Ok (i', bs').
Proof.
  intros s bs i i' bs' H. destruct i; simpl in H.
  - injection H as <- <-. split; [exact I | reflexivity].
  - destruct (resolve_labels bs catches) eqn:L; simpl in H; [| discriminate]. injection H as <- <-. destruct (labels_number _ _ _ L) as [A B]. split; [exact A | simpl; rewrite B; reflexivity].
  - destruct (check_label label bs) eqn:L; simpl in H; [| discriminate]. injection H as <- <-. split; [exact I | simpl; rewrite L; reflexivity].
  - destruct (check_label label bs) eqn:L; simpl in H; [| discriminate]. injection H as <- <-. split; [exact I | simpl; rewrite L; reflexivity].
  - destruct (resolve_labels bs labels) eqn:L; simpl in H; [| discriminate]. injection H as <- <-. destruct (labels_number _ _ _ L) as [A B]. split; [exact A | simpl; rewrite B; reflexivity].
  - destruct (resolve_label (tl bs) label) eqn:L; simpl in H; [| discriminate]. injection H as <- <-. destruct (label_number _ _ _ L) as [A B]. split; [exact A | simpl; rewrite B; reflexivity].
  - destruct (resolve_local s i) eqn:L; simpl in H; [| discriminate]. injection H as <- <-. destruct (local_number _ _ _ L) as [A B]. split; [exact A | simpl; rewrite B; reflexivity].
  - injection H as <- <-. split; [exact I | reflexivity].
Qed.
Lemma expr_number : forall s l bs l', resolve_expr s bs l = Ok l' -> Forall resolved l' /\ resolve_expr s bs l' = Ok l' /\ length l' = length l.
Proof.
  intros s l. induction l as [| i l IH]; intros bs l' H; cbn [resolve_expr] in H; [injection H as <-; repeat split; constructor |].
  destruct (resolve_instr s bs i) as [[i' bs'] | ?] eqn:R; simpl in H; [| discriminate]. destruct (resolve_expr s bs' l) as [l1 | ?] eqn:L; simpl in H; [| discriminate]. injection H as <-.
  destruct (instr_number _ _ _ _ _ R) as [A B]. destruct (IH _ _ L) as (C & D & E). split; [constructor; assumption |]. cbn [resolve_expr length]. rewrite B. simpl. rewrite D. split; [reflexivity | f_equal; exact E].
Qed.

(** Renaming. *)
Lemma eqb_inj : forall f x y, inj f -> (f x =? f y) = (x =? y).
Proof. intros f x y I. destruct (Nat.eqb_spec x y) as [-> | N]; [apply Nat.eqb_refl |]. apply Nat.eqb_neq. intro C. apply N. exact (I _ _ C). Qed.
Lemma find_rename : forall f x bs i, inj f -> find_label i (f x) (map (option_map f) bs) = find_label i x bs.
Proof. intros f x bs i I. revert i. induction bs as [| [y |] bs IH]; intro i; simpl; [reflexivity | rewrite eqb_inj by exact I; rewrite IH; reflexivity | apply IH]. Qed.
Section Rename.
Variables (f g : nat -> nat).
Hypothesis (If : inj f) (Ig : inj g).
Lemma label_rename : forall bs i, resolve_label (map (option_map f) bs) (rename_idx f i) = rename_res f g (rename_idx f) (resolve_label bs i).
Proof. intros bs [n | x]; simpl; [reflexivity |]. rewrite find_rename by exact If. destruct (find_label 0 x bs); reflexivity. Qed.
Lemma labels_rename : forall bs l, resolve_labels (map (option_map f) bs) (map (rename_idx f) l) = rename_res f g (map (rename_idx f)) (resolve_labels bs l).
Proof.
  intros bs l. induction l as [| i l IH]; simpl; [reflexivity |]. rewrite label_rename. destruct (resolve_label bs i); simpl; [| reflexivity]. rewrite IH. destruct (resolve_labels bs l); reflexivity.
Qed.
Definition gmap (m : list (nat * nat)) : list (nat * nat) := map (fun e => (g (fst e), snd e)) m.
Definition gns (s : namespace) : namespace := mkNs (gmap (ns_names s)) (ns_count s).
Lemma get_rename : forall x m, get (g x) (gmap m) = get x m.
Proof. intros x m. induction m as [| [y i] m IH]; simpl; [reflexivity |]. rewrite eqb_inj by exact Ig. rewrite IH. reflexivity. Qed.
Lemma local_rename : forall s i, resolve_local (gns s) (rename_idx g i) = rename_res f g (rename_idx g) (resolve_local s i).
Proof. intros s [n | x]; simpl; [reflexivity |]. rewrite get_rename. destruct (get x (ns_names s)); reflexivity. Qed.
Lemma check_rename : forall e bs, check_label (option_map f e) (map (option_map f) bs) = rename_res f g (fun u => u) (check_label e bs).
Proof. intros [x |] [| [y |] bs]; simpl; try reflexivity. rewrite eqb_inj by exact If. destruct (x =? y); reflexivity. Qed.
Lemma tl_rename : forall bs : list (option nat), tl (map (option_map f) bs) = map (option_map f) (tl bs). Proof. intros [| b bs]; reflexivity. Qed.
Lemma instr_rename : forall s bs i, resolve_instr (gns s) (map (option_map f) bs) (rename f g i) =
  rename_res f g (fun r => (rename f g (fst r), map (option_map f) (snd r))) (resolve_instr s bs i).
Proof.
  intros s bs i. destruct i; cbn [resolve_instr rename].
  - reflexivity.
  - rewrite labels_rename. destruct (resolve_labels bs catches); reflexivity.
  - rewrite check_rename. destruct (check_label label bs); reflexivity.
  - rewrite check_rename, tl_rename. destruct (check_label label bs); reflexivity.
  - rewrite labels_rename. destruct (resolve_labels bs labels); reflexivity.
  - rewrite tl_rename, label_rename. destruct (resolve_label (tl bs) label); reflexivity.
  - rewrite local_rename. destruct (resolve_local s i); reflexivity.
  - reflexivity.
Qed.
Lemma expr_rename : forall s l bs, resolve_expr (gns s) (map (option_map f) bs) (map (rename f g) l) = rename_res f g (map (rename f g)) (resolve_expr s bs l).
Proof.
  intros s l. induction l as [| i l IH]; intro bs; cbn [resolve_expr map]; [reflexivity |]. rewrite instr_rename. destruct (resolve_instr s bs i) as [[i' bs'] | e]; simpl; [| reflexivity]. rewrite IH. destruct (resolve_expr s bs' l); reflexivity.
Qed.
Lemma register_rename : forall l s, register_all (map (option_map g) l) (gns s) = match register_all l s with Ok s' => Ok (gns s') | Err e => Err (rename_err f g e) end.
Proof.
  intro l. induction l as [| x l IH]; intro s; simpl; [reflexivity |]. destruct x as [x |]; simpl; unfold register; simpl.
  - rewrite get_rename. destruct (get x (ns_names s)) eqn:E; simpl; [reflexivity |]. exact (IH (mkNs ((x, ns_count s) :: ns_names s) (S (ns_count s)))).
  - exact (IH (mkNs (ns_names s) (S (ns_count s)))).
Qed.
Lemma body_rename : forall locals l, resolve_body (map (option_map g) locals) (map (rename f g) l) = rename_res f g (map (rename f g)) (resolve_body locals l).
Proof.
  intros locals l. unfold resolve_body. change (mkNs [] 0) with (gns (mkNs [] 0)) at 1. rewrite register_rename. destruct (register_all locals (mkNs [] 0)) as [s | e]; simpl; [| reflexivity]. exact (expr_rename s l []).
Qed.
End Rename.
