(** Proofs about index spaces. *)
From Coq Require Import List Arith Bool Lia.
Import ListNotations.
From Verif.Space Require Import Model Spec.

Lemma items_app : forall k a b, items k (a ++ b) = items k a ++ items k b. Proof. intros k a b. apply flat_map_app. Qed.
Lemma items_cons : forall k f fs, items k (f :: fs) = field_items k f ++ items k fs. Proof. reflexivity. Qed.
Lemma requests_ext : forall fs o o', (forall k, o k = o' k) -> requests o fs = requests o' fs.
Proof.
  induction fs as [| f fs IH]; intros o o' H; simpl; [reflexivity |]. rewrite (IH _ (fun k => o' k + length (field_items k f))) by (intro k; rewrite H; reflexivity). f_equal.
  destruct f; simpl; try reflexivity. rewrite H. reflexivity.
Qed.
Lemma requests_app : forall a b o, requests o (a ++ b) = requests o a ++ requests (fun k => o k + length (items k a)) b.
Proof.
  induction a as [| f a IH]; intros b o; simpl; [apply requests_ext; intro k; lia |]. rewrite IH, <- app_assoc. do 2 f_equal. apply requests_ext. intro k. rewrite app_length. lia.
Qed.

(** Fields after the first pass. *)
Definition clean (f : field) : Prop := match f with FItem _ _ es b _ => es = [] /\ b = Defined | _ => True end.
Definition link (a b : item) : Prop := snd b = snd a /\ (fst b = fst a \/ (fst a = None /\ exists n, fst b = Some (Gen n))).
Definition lowered_target (l : list item) (t t' : target) : Prop := match t with By _ => t' = t | At p => exists y, t' = By (Sym y) /\ option_map fst (nth_error l p) = Some (Some y) end.
Inductive lowered (l : kind -> list item) : request -> request -> Prop :=
| LExport : forall e k t t', lowered_target (l k) t t' -> lowered l (RExport e k t) (RExport e k t')
| LStart : forall t t', lowered_target (l Func) t t' -> lowered l (RStart t) (RStart t')
| LSegment : forall k t t' p, lowered_target (l k) t t' -> lowered l (RSegment k (Some t) p) (RSegment k (Some t') p)
| LPassive : forall k p, lowered l (RSegment k None p) (RSegment k None p).
Lemma exports_some : forall k y es c, exports_of k (Some y) es c = (map (fun e => FExport e k (Sym y)) es, Some y, c).
Proof. intros k y es c. induction es as [| e es IH]; simpl; [reflexivity |]. rewrite IH. reflexivity. Qed.
Lemma link_refl : forall l, Forall2 link l l. Proof. induction l; constructor; auto. split; auto. Qed.
Lemma exports_items : forall k k' y es, items k (map (fun e => FExport e k' (Sym y)) es) = [].
Proof. intros k k' y es. induction es as [| e es IH]; [reflexivity | exact IH]. Qed.
Lemma exports_clean : forall k' y es, Forall clean (map (fun e => FExport e k' (Sym y)) es).
Proof. intros k' y es. induction es; constructor; simpl; auto. Qed.
Lemma exports_requests : forall l k y p es o, option_map fst (nth_error (l k) p) = Some (Some y) ->
  Forall2 (lowered l) (map (fun e => RExport e k (At p)) es) (requests o (map (fun e => FExport e k (Sym y)) es)).
Proof. intros l k y p es o H. revert o. induction es as [| e es IH]; intro o; simpl; constructor; [| apply IH]. constructor. simpl. eauto. Qed.

Lemma exports_cases : forall k x es c, exists z c', exports_of k x es c = (match z with Some y => map (fun e => FExport e k (Sym y)) es | None => [] end, z, c') /\
  (z = x \/ (x = None /\ exists n, z = Some (Gen n))) /\ (z = None -> es = []).
Proof.
  intros k [x |] es c; [rewrite exports_some; exists (Some x), c; split; [reflexivity | split; [auto | discriminate]] |]. destruct es as [| e es]; simpl.
  - exists None, c. repeat split; auto.
  - rewrite exports_some. exists (Some (Gen c)), (S c). split; [reflexivity |]. split; [right; eauto | discriminate].
Qed.
Lemma deinline_ok : forall f c fs c', deinline f c = (fs, c') ->
  (forall k, Forall2 link (field_items k f) (items k fs)) /\ Forall clean fs /\
  (forall pre post o, Forall2 (lowered (fun k => pre k ++ items k fs ++ post k)) (field_requests (fun k => length (pre k)) f) (requests o fs)).
Proof.
  intros f c fs c' H. destruct f as [l | k x es b n | e k i | i | k i p | n]; simpl in H.
  2: { destruct (exports_cases k x es c) as (z & c1 & E & Z & N). rewrite E in H.
    set (ex := match z with Some y => map (fun e => FExport e k (Sym y)) es | None => [] end) in *.
    assert (Xi : forall k', items k' ex = []) by (intro k'; unfold ex; destruct z; [apply exports_items | reflexivity]).
    assert (Xc : Forall clean ex) by (unfold ex; destruct z; [apply exports_clean | constructor]).
    assert (Xr : forall (l : kind -> list item) p o, (forall y, z = Some y -> option_map fst (nth_error (l k) p) = Some (Some y)) -> Forall2 (lowered l) (map (fun e => RExport e k (At p)) es) (requests o ex)).
    { intros l p o Hl. unfold ex. destruct z as [y |]; [apply exports_requests; apply Hl; reflexivity |]. rewrite (N eq_refl). constructor. }
    assert (At_end : forall (a : list item) e r, nth_error (a ++ (e :: r)) (length a) = Some e) by (intros a e r; rewrite nth_error_app2, Nat.sub_diag by lia; reflexivity).
    destruct b as [| | p].
    - injection H as <- <-. split; [| split].
      + intro k'. rewrite items_app, Xi. simpl. destruct (kind_dec k' k); simpl; constructor; [| constructor]. split; [reflexivity | exact Z].
      + apply Forall_app. split; [exact Xc | repeat constructor].
      + intros pre post o. rewrite requests_app. simpl. rewrite !app_nil_r. apply Xr. intros y ->. rewrite items_app, Xi. simpl. destruct (kind_dec k k) as [_ | C]; [| contradiction]. simpl. rewrite At_end. reflexivity.
    - injection H as <- <-. split; [| split].
      + intro k'. rewrite items_app, Xi. simpl. destruct (kind_dec k' k); simpl; constructor; [| constructor]. split; [reflexivity | exact Z].
      + apply Forall_app. split; [exact Xc | repeat constructor].
      + intros pre post o. rewrite requests_app. simpl. rewrite !app_nil_r. apply Xr. intros y ->. rewrite items_app, Xi. simpl. destruct (kind_dec k k) as [_ | C]; [| contradiction]. simpl. rewrite At_end. reflexivity.
    - destruct (fill z c1) as [y c2] eqn:F. injection H as <- <-.
      assert (Zy : Some y = x \/ (x = None /\ exists n, Some y = Some (Gen n))).
      { unfold fill in F. destruct z as [z |]; injection F as <- <-; [exact Z |]. destruct Z as [<- | (_ & m & C)]; [right; eauto | discriminate]. }
      assert (Zz : forall w, z = Some w -> w = y) by (intros w ->; simpl in F; injection F as -> _; reflexivity).
      split; [| split].
      + intro k'. rewrite items_app, Xi. simpl. destruct (kind_dec k' k); simpl; constructor; [| constructor]. split; [reflexivity | exact Zy].
      + apply Forall_app. split; [exact Xc | repeat constructor].
      + intros pre post o. rewrite requests_app.
        assert (P : option_map fst (nth_error (pre k ++ items k (ex ++ [FSegment k (Some (Sym y)) p; FItem k (Some y) [] Defined n]) ++ post k) (length (pre k))) = Some (Some y)).
        { rewrite items_app, Xi. simpl. destruct (kind_dec k k) as [_ | C]; [| contradiction]. simpl. rewrite At_end. reflexivity. }
        simpl. apply Forall2_app.
        * apply Xr. intros w W. rewrite (Zz w W). exact P.
        * constructor; [| constructor]. constructor. simpl. exists y. split; [reflexivity | exact P]. }
  all: injection H as <- <-; split; [intro k'; simpl; rewrite ?app_nil_r; apply link_refl | split; [repeat constructor |]]; intros pre post o; simpl; try constructor; try constructor; try reflexivity.
  destruct i; simpl; constructor; reflexivity.
Qed.
Lemma lowered_ext : forall l l' a b, (forall k, l k = l' k) -> Forall2 (lowered l) a b -> Forall2 (lowered l') a b.
Proof. intros l l' a b E H. induction H as [| x y a b X H IH]; constructor; [| exact IH]. destruct X; constructor; rewrite <- E; assumption. Qed.
Lemma same_length : forall A B (R : A -> B -> Prop) a b, Forall2 R a b -> length a = length b. Proof. intros A B R a b H. induction H; simpl; auto. Qed.
Lemma run_ok : forall fs c fs1 c', run fs c = (fs1, c') ->
  (forall k, Forall2 link (items k fs) (items k fs1)) /\ Forall clean fs1 /\
  (forall pre o, Forall2 (lowered (fun k => pre k ++ items k fs1)) (requests (fun k => length (pre k)) fs) (requests o fs1)).
Proof.
  induction fs as [| f fs IH]; intros c fs1 c' H; simpl in H.
  - injection H as <- <-. split; [intro k; constructor | split; [constructor | intros; constructor]].
  - destruct (deinline f c) as [a c1] eqn:D. destruct (run fs c1) as [b c2] eqn:R. injection H as <- <-.
    destruct (deinline_ok _ _ _ _ D) as (A1 & A2 & A3). destruct (IH _ _ _ R) as (B1 & B2 & B3). split; [| split].
    + intro k. rewrite items_cons, items_app. apply Forall2_app; auto.
    + apply Forall_app. auto.
    + intros pre o. simpl. rewrite requests_app. apply Forall2_app.
      * eapply lowered_ext; [| apply (A3 pre (fun k => items k b))]. intro k. simpl. rewrite items_app. reflexivity.
      * rewrite (requests_ext fs _ (fun k => length (pre k ++ items k a))).
        -- eapply lowered_ext; [| apply (B3 (fun k => pre k ++ items k a))]. intro k. simpl. rewrite items_app, <- app_assoc. reflexivity.
        -- intro k. rewrite app_length. f_equal. exact (same_length _ _ _ _ _ (A1 k)).
Qed.

(** Names. *)
Definition holds (l : list item) (s : namespace) : Prop := ns_count s = length l /\ forall x n, get x (ns_names s) = Some n <-> option_map fst (nth_error l n) = Some (Some x).
Lemma nth_snoc : forall (l : list item) e n x, option_map fst (nth_error (l ++ [e]) n) = Some (Some x) <-> option_map fst (nth_error l n) = Some (Some x) \/ (n = length l /\ fst e = Some x).
Proof.
  intros l e n x. destruct (lt_dec n (length l)) as [L | L].
  - rewrite nth_error_app1 by exact L. split; [auto |]. intros [H | [H _]]; [exact H | lia].
  - rewrite nth_error_app2 by lia. rewrite (proj2 (nth_error_None l n)) by lia. destruct (n - length l) as [| q] eqn:E; simpl.
    + split; [intro H; injection H as H; right; split; [lia | exact H] | intros [H | [_ ->]]; [discriminate | reflexivity]].
    + split; [destruct q; discriminate | intros [H | [H _]]; [discriminate | lia]].
Qed.
Lemma register_ok : forall k l s e s', holds l s -> register k (fst e) s = Ok s' -> holds (l ++ [e]) s'.
Proof.
  intros k l s e s' (C & G) H. unfold register in H. destruct (fst e) as [x |] eqn:X.
  - destruct (get x (ns_names s)) as [n |] eqn:E; [discriminate |]. injection H as <-. split; [simpl; rewrite app_length; simpl; lia |].
    intros z n. simpl. rewrite nth_snoc, X. destruct (id_dec z x) as [-> | D].
    + split; [intro H; injection H as <-; right; auto |]. intros [H | [-> _]]; [apply G in H; congruence | f_equal; exact C].
    + rewrite G. split; [auto |]. intros [H | [_ H]]; [exact H | congruence].
  - injection H as <-. split; [simpl; rewrite app_length; simpl; lia |]. intros z n. simpl. rewrite nth_snoc, G, X. split; [auto |]. intros [H | [_ H]]; [exact H | discriminate].
Qed.
Lemma sigs_ok : forall k sg l s s', holds l s -> register_sigs k sg s = Ok s' -> holds (l ++ field_items k (FImport sg)) s'.
Proof.
  intros k sg. induction sg as [| [[k' x] n] sg IH]; intros l s s' H R; simpl in R; [injection R as <-; simpl; rewrite app_nil_r; exact H |].
  simpl. destruct (kind_dec k k'); simpl in R |- *; [| exact (IH _ _ _ H R)]. destruct (register k x s) as [s1 | ?] eqn:E; simpl in R; [| discriminate].
  pose proof (IH _ _ _ (register_ok k l s (x, (true, n)) s1 H E) R) as J. rewrite <- app_assoc in J. exact J.
Qed.
Lemma register_all_ok : forall k fs l s s', holds l s -> register_all k fs s = Ok s' -> holds (l ++ items k fs) s'.
Proof.
  intros k fs. induction fs as [| f fs IH]; intros l s s' H R; simpl in R; [injection R as <-; simpl; rewrite app_nil_r; exact H |]. rewrite items_cons.
  destruct f as [sg | k' x es b n | | | |]; try exact (IH _ _ _ H R).
  - destruct (register_sigs k sg s) as [s1 | ?] eqn:E; simpl in R; [| discriminate]. rewrite app_assoc. exact (IH _ _ _ (sigs_ok _ _ _ _ _ H E) R).
  - simpl. destruct (kind_dec k k'); simpl in R |- *; [| exact (IH _ _ _ H R)]. destruct (register k x s) as [s1 | ?] eqn:E; simpl in R; [| discriminate].
    pose proof (IH _ _ _ (register_ok k l s (x, (match b with Imported => true | _ => false end, n)) s1 H E) R) as J. rewrite <- app_assoc in J. exact J.
Qed.
Lemma empty_holds : holds [] empty.
Proof. split; [reflexivity |]. intros x n. simpl. destruct n; split; discriminate. Qed.

Definition numbered_target (l : list item) (t : target) (n : nat) : Prop := match t with By (Num m) => n = m | By (Sym x) => names l x n | At _ => False end.
Inductive numbered (l : kind -> list item) : request -> request -> Prop :=
| NExport : forall e k t n, numbered_target (l k) t n -> numbered l (RExport e k t) (RExport e k (By (Num n)))
| NStart : forall t n, numbered_target (l Func) t n -> numbered l (RStart t) (RStart (By (Num n)))
| NSegment : forall k t n p, numbered_target (l k) t n -> numbered l (RSegment k (Some t) p) (RSegment k (Some (By (Num n))) p)
| NPassive : forall k p, numbered l (RSegment k None p) (RSegment k None p).
Lemma idx_ok : forall ns l k i j, (forall k, holds (l k) (ns k)) -> resolve_idx ns k i = Ok j -> exists n, j = Num n /\ numbered_target (l k) (By i) n.
Proof.
  intros ns l k [m | x] j H R; simpl in R; [injection R as <-; exists m; split; reflexivity |]. destruct (get x (ns_names (ns k))) as [n |] eqn:E; [| discriminate]. injection R as <-. exists n. split; [reflexivity |].
  destruct (H k) as [_ G]. simpl. intro m. rewrite <- G, E. split; congruence.
Qed.
Lemma fields_ok : forall ns l fs out, (forall k, holds (l k) (ns k)) -> Forall clean fs -> resolve_fields ns fs = Ok out ->
  (forall k, items k out = items k fs /\ imports k out = imports k fs /\ definitions k out = definitions k fs) /\ forall o o', Forall2 (numbered l) (requests o fs) (requests o' out).
Proof.
  intros ns l fs out H. revert out. induction fs as [| f fs IH]; intros out C R; cbn [resolve_fields] in R; [injection R as <-; split; [auto | intros; constructor] |].
  destruct (resolve_field ns f) as [f' | ?] eqn:F; simpl in R; [| discriminate]. destruct (resolve_fields ns fs) as [fs' | ?] eqn:Fs; simpl in R; [| discriminate]. injection R as <-.
  inversion C as [| ? ? C1 C2]; subst. destruct (IH _ C2 eq_refl) as [A B].
  assert (S : (forall k, field_items k f' = field_items k f /\ imports k [f'] = imports k [f] /\ definitions k [f'] = definitions k [f]) /\ forall o o', Forall2 (numbered l) (field_requests o f) (field_requests o' f')).
  { destruct f as [sg | k x es b n | e k i | i | k i p | n]; simpl in F.
    - injection F as <-. split; [auto | intros; constructor].
    - injection F as <-. destruct C1 as [-> ->]. split; [auto | intros; constructor].
    - destruct (resolve_idx ns k i) as [j | ?] eqn:E; simpl in F; [| discriminate]. injection F as <-. destruct (idx_ok _ _ _ _ _ H E) as (n & -> & N). split; [auto | intros; repeat constructor; exact N].
    - destruct (resolve_idx ns Func i) as [j | ?] eqn:E; simpl in F; [| discriminate]. injection F as <-. destruct (idx_ok _ _ _ _ _ H E) as (n & -> & N). split; [auto | intros; repeat constructor; exact N].
    - destruct i as [i |]; [| injection F as <-; split; [auto | intros; repeat constructor]]. destruct (resolve_idx ns k i) as [j | ?] eqn:E; simpl in F; [| discriminate]. injection F as <-. destruct (idx_ok _ _ _ _ _ H E) as (n & -> & N). split; [auto | intros; repeat constructor; exact N].
    - injection F as <-. split; [auto | intros; constructor]. }
  destruct S as [S1 S2]. split.
  - intro k. destruct (A k) as (A1 & A2 & A3). destruct (S1 k) as (X1 & X2 & X3). split; [rewrite !items_cons, A1, X1; reflexivity |].
    change (f' :: fs') with ([f'] ++ fs'). change (f :: fs) with ([f] ++ fs). unfold imports, definitions in *. rewrite !(flat_map_app _ [f']), !(flat_map_app _ [f]). rewrite A2, A3, X2, X3. auto.
  - intros o o'. simpl. apply Forall2_app; [apply S2 | apply B].
Qed.

(** The order of imports. *)
Lemma encoded_items : forall k fs, Forall clean fs -> encoded k fs = filter fst (map snd (items k fs)) ++ filter (fun e => negb (fst e)) (map snd (items k fs)).
Proof.
  intros k fs C. unfold encoded. f_equal.
  - induction C as [| f fs C1 C2 IH]; [reflexivity |]. rewrite items_cons. change (imports k (f :: fs)) with (imports k ([f] ++ fs)). unfold imports in *. rewrite flat_map_app, !map_app, filter_app, IH. f_equal. simpl. rewrite app_nil_r.
    destruct f as [sg | k' x es b n | | | |]; try reflexivity; simpl.
    + clear C1. induction sg as [| [[k' x] n] sg IHs]; simpl; [reflexivity |]. destruct (kind_dec k k'); simpl; rewrite IHs; reflexivity.
    + destruct C1 as [_ ->]. destruct (kind_dec k k'); reflexivity.
  - induction C as [| f fs C1 C2 IH]; [reflexivity |]. rewrite items_cons. change (definitions k (f :: fs)) with (definitions k ([f] ++ fs)). unfold definitions in *. rewrite flat_map_app, !map_app, filter_app, IH. f_equal. simpl. rewrite app_nil_r.
    destruct f as [sg | k' x es b n | | | |]; try reflexivity; simpl.
    + clear C1. induction sg as [| [[k' x] n] sg IHs]; simpl; [reflexivity |]. destruct (kind_dec k k'); simpl; exact IHs.
    + destruct C1 as [_ ->]. destruct (kind_dec k k'); reflexivity.
Qed.
Lemma no_import_filter : forall l, no_import l -> filter fst (map snd l) = [] /\ filter (fun e => negb (fst e)) (map snd l) = map snd l.
Proof. induction l as [| e l IH]; simpl; [auto |]. intros [E N]. rewrite E. simpl. destruct (IH N) as [-> ->]. auto. Qed.
Lemma first_filter : forall l, imports_first l -> filter fst (map snd l) ++ filter (fun e => negb (fst e)) (map snd l) = map snd l.
Proof.
  induction l as [| e l IH]; simpl; [reflexivity |]. destruct (fst (snd e)) eqn:E; simpl; intro H; [rewrite (IH H); reflexivity |]. destruct (no_import_filter _ H) as [-> ->]. reflexivity.
Qed.
Lemma first_link : forall l l', Forall2 link l l' -> map snd l' = map snd l. Proof. intros l l' H. induction H as [| a b l l' [E _] H IH]; simpl; [reflexivity | rewrite E, IH; reflexivity]. Qed.
Lemma no_import_snd : forall l l', map snd l = map snd l' -> no_import l -> no_import l'.
Proof. induction l as [| e l IH]; intros [| e' l'] E H; simpl in *; try discriminate; [exact I |]. injection E as E1 E2. rewrite <- E1. split; [apply H | apply (IH _ E2); apply H]. Qed.
Lemma first_snd : forall l l', map snd l = map snd l' -> imports_first l -> imports_first l'.
Proof. induction l as [| e l IH]; intros [| e' l'] E H; simpl in *; try discriminate; [exact I |]. injection E as E1 E2. rewrite <- E1. destruct (fst (snd e)); [exact (IH _ E2 H) | exact (no_import_snd _ _ E2 H)]. Qed.
Lemma after_def : forall k fs, check_order true fs = Ok tt -> Forall clean fs -> no_import (items k fs).
Proof.
  intros k fs. induction fs as [| f fs IH]; intros H C; [exact I |]. inversion C as [| ? ? C1 C2]; subst. rewrite items_cons. destruct f as [sg | k' x es b n | | | |]; simpl in H; try (exact (IH H C2)); [discriminate |].
  assert (H' : check_order true fs = Ok tt) by (destruct k'; exact H). destruct C1 as [_ ->]. simpl. destruct (kind_dec k k'); simpl; [split; [reflexivity |] |]; exact (IH H' C2).
Qed.
Lemma first_sigs : forall k sg l, imports_first l -> imports_first (field_items k (FImport sg) ++ l).
Proof. intros k sg l H. induction sg as [| [[k' x] n] sg IH]; simpl; [exact H |]. destruct (kind_dec k k'); simpl; exact IH. Qed.
Lemma no_import_first : forall l, no_import l -> imports_first l. Proof. intros [| e l] H; simpl in *; [exact I |]. destruct H as [-> H]. exact H. Qed.
Lemma order_first : forall k fs, k <> Tag -> check_order false fs = Ok tt -> Forall clean fs -> imports_first (items k fs).
Proof.
  intros k fs K. induction fs as [| f fs IH]; intros H C; [exact I |]. inversion C as [| ? ? C1 C2]; subst. rewrite items_cons. destruct f as [sg | k' x es b n | | | |]; simpl in H; try (exact (IH H C2)); [apply first_sigs; exact (IH H C2) |].
  destruct C1 as [_ ->]. simpl. destruct (kind_dec k k') as [<- | D]; simpl.
  - apply after_def; [destruct k; try exact H; contradiction | exact C2].
  - destruct k'; try (apply no_import_first; apply after_def; [exact H | exact C2]). exact (IH H C2).
Qed.

(** Together. *)
Lemma link_nth : forall l l' x n, Forall2 link l l' -> (option_map fst (nth_error l n) = Some (Some (Src x)) <-> option_map fst (nth_error l' n) = Some (Some (Src x))).
Proof.
  intros l l' x n H. revert n. induction H as [| a b l l' [_ [E | (E & m & E')]] H IH]; intros [| n]; simpl; try reflexivity; try apply IH; [rewrite E; reflexivity |]. rewrite E, E'. split; discriminate.
Qed.
Lemma compose : forall fs (l : kind -> list item) a b c, (forall k, Forall2 link (items k fs) (l k)) ->
  (forall r, In r a -> match r with RExport _ _ (By i) | RStart (By i) | RSegment _ (Some (By i)) _ => source_idx i | _ => True end) ->
  Forall2 (lowered l) a b -> Forall2 (numbered l) b c -> Forall2 (met fs) a c.
Proof.
  intros fs l a b c L S A. revert c. induction A as [| x y a b X A IH]; intros c B; inversion B as [| ? z ? c' Z B']; subst; constructor; [| apply IH; [intros r Hr; apply S; right; exact Hr | exact B']].
  assert (T : forall k t t' n, match t with By i => source_idx i | At _ => True end -> lowered_target (l k) t t' -> numbered_target (l k) t' n -> meant fs k t n).
  { intros k t t' n St Lt Nt. destruct t as [i | p]; simpl in Lt.
    - subst t'. destruct i as [m | x0]; simpl in *; [exact Nt |]. destruct x0 as [x0 | x0]; [| destruct St]. intro m. rewrite (link_nth _ _ _ _ (L k)). apply Nt.
    - destruct Lt as (w & -> & W). simpl in *. symmetry. apply Nt. exact W. }
  specialize (S x (or_introl eq_refl)). inversion X; subst; inversion Z; subst; constructor; eapply T; try eassumption; destruct t; exact S || exact I.
Qed.
Lemma source_requests : forall fs o r, source fs -> In r (requests o fs) -> match r with RExport _ _ (By i) | RStart (By i) | RSegment _ (Some (By i)) _ => source_idx i | _ => True end.
Proof.
  intros fs o r S. revert o. induction S as [| f fs F S IH]; intros o H; simpl in H; [destruct H |]. apply in_app_or in H. destruct H as [H | H]; [| exact (IH _ H)].
  destruct f as [sg | k x es b n | e k i | i | k i p | n]; simpl in H.
  - destruct H.
  - apply in_app_or in H. destruct H as [H | H]; [apply in_map_iff in H; destruct H as (e & <- & _); exact I |]. destruct b; simpl in H; try destruct H as [<- | []]; try destruct H. exact I.
  - destruct H as [<- | []]. exact F.
  - destruct H as [<- | []]. exact F.
  - destruct H as [<- | []]. destruct i; simpl; [exact F | exact I].
  - destruct H.
Qed.
Lemma resolve_all : forall fs out, source fs -> resolve fs = Ok out ->
  Forall2 (met fs) (requests (fun _ => 0) fs) (requests (fun _ => 0) out) /\
  (forall k, map snd (items k out) = map snd (items k fs)) /\
  (forall k, k <> Tag -> imports_first (items k fs)) /\
  (forall k, imports_first (items k fs) -> encoded k out = map snd (items k fs)).
Proof.
  intros fs out S R. unfold resolve in R. destruct (run fs 0) as [fs1 c] eqn:U. destruct (run_ok _ _ _ _ U) as (L & C & Q).
  destruct (check_order false fs1) as [[] | ?] eqn:O; simpl in R; [| discriminate].
  destruct (register_all Func fs1 empty) as [nf | ?] eqn:Rf; simpl in R; [| discriminate]. destruct (register_all Table fs1 empty) as [nt | ?] eqn:Rt; simpl in R; [| discriminate].
  destruct (register_all Memory fs1 empty) as [nm | ?] eqn:Rm; simpl in R; [| discriminate]. destruct (register_all Global fs1 empty) as [ng | ?] eqn:Rg; simpl in R; [| discriminate].
  destruct (register_all Tag fs1 empty) as [nx | ?] eqn:Rx; simpl in R; [| discriminate].
  match type of R with resolve_fields ?n _ = _ => assert (H : forall k, holds (items k fs1) (n k)) end.
  { intros []; eapply (register_all_ok _ fs1 []); try exact empty_holds; assumption. }
  destruct (fields_ok _ (fun k => items k fs1) _ _ H C R) as [A B]. split; [| split; [| split]].
  - eapply compose; [exact L | intros r; apply source_requests; exact S | exact (Q (fun _ => []) (fun _ => 0)) | apply B].
  - intro k. destruct (A k) as (-> & _). apply first_link. apply L.
  - intros k K. apply (first_snd (items k fs1)); [apply first_link; apply L |]. apply order_first; assumption.
  - intros k F. destruct (A k) as (_ & A2 & A3). unfold encoded. rewrite A2, A3. fold (encoded k fs1). rewrite (encoded_items _ _ C), (first_link _ _ (L k)). apply first_filter. exact F.
Qed.
