(** Which texts are accepted. *)
From Coq Require Import List Arith Bool Lia.
Import ListNotations.
From Verif.Space Require Import Model Spec Proofs.

Lemma nodup_app_iff : forall A (a b : list A), NoDup (a ++ b) <-> NoDup a /\ NoDup b /\ forall x, In x a -> ~ In x b.
Proof.
  intros A a b. induction a as [| x a IH]; simpl; [split; [intro H; repeat split; [constructor | exact H | intros x []] | intros (_ & H & _); exact H] |]. split.
  - intro H. inversion H as [| ? ? N H']; subst. apply IH in H'. destruct H' as (H1 & H2 & H3). split; [constructor; [intro C; apply N; apply in_or_app; left; exact C | exact H1] |]. split; [exact H2 |].
    intros y [<- | Hy] C; [apply N; apply in_or_app; right; exact C | exact (H3 y Hy C)].
  - intros (H1 & H2 & H3). inversion H1 as [| ? ? N H']; subst. constructor; [| apply IH; split; [exact H' | split; [exact H2 | intros y Hy; apply H3; right; exact Hy]]].
    intro C. apply in_app_or in C. destruct C as [C | C]; [exact (N C) | exact (H3 x (or_introl eq_refl) C)].
Qed.
Lemma idl_app : forall a b, idl (a ++ b) = idl a ++ idl b. Proof. intros a b. apply flat_map_app. Qed.
Lemma ids_app : forall k a b, ids k (a ++ b) = ids k a ++ ids k b. Proof. intros k a b. unfold ids. rewrite items_app. apply idl_app. Qed.
Lemma ids_one : forall k f, ids k [f] = idl (field_items k f). Proof. intros k f. unfold ids. simpl. rewrite app_nil_r. reflexivity. Qed.
Lemma ids_cons : forall k f fs, ids k (f :: fs) = ids k [f] ++ ids k fs. Proof. intros k f fs. rewrite <- ids_app. reflexivity. Qed.

(** Order. *)
Fixpoint ord (last : bool) (fs : list field) : Prop :=
  match fs with
  | [] => True
  | f :: fs => (is_import f -> last = false) /\ ord (last || match f with FItem Tag _ _ _ _ => false | FItem _ _ _ Imported _ => false | FItem _ _ _ _ _ => true | _ => false end) fs
  end.
Lemma is_definition_b : forall f, is_definition f <-> match f with FItem Tag _ _ _ _ => false | FItem _ _ _ Imported _ => false | FItem _ _ _ _ _ => true | _ => false end = true.
Proof. intros [| [] x es [] n | | | |]; simpl; split; intro H; try discriminate; try contradiction; auto. Qed.
Lemma ord_iff : forall fs last, ord last fs <-> ordered fs /\ (last = true -> forall f, In f fs -> ~ is_import f).
Proof.
  induction fs as [| f fs IH]; intro last; simpl.
  - split; [| auto]. intros _. split; [intros [| ? ?] ? ? ? E; discriminate | intros _ f []].
  - rewrite IH. split.
    + intros (I & O & L). split.
      * intros a h b g E Hh Hg. destruct a as [| f' a]; [destruct Hg |]. injection E as <- E. destruct Hg as [<- | Hg]; [| exact (O a h b g E Hh Hg)].
        intro D. apply is_definition_b in D. apply (L (proj2 (orb_true_iff _ _) (or_intror D)) h); [rewrite E; apply in_or_app; right; left; reflexivity | exact Hh].
      * intros -> h [<- | Hh]; [intro C; specialize (I C); discriminate | exact (L eq_refl h Hh)].
    + intros (O & L). split; [intro C; destruct last; [destruct (L eq_refl f (or_introl eq_refl) C) | reflexivity] |]. split.
      * intros a h b g E Hh Hg. apply (O (f :: a) h b g); [rewrite E; reflexivity | exact Hh | right; exact Hg].
      * intros T h Hh C. apply orb_true_iff in T. destruct T as [T | T]; [exact (L T h (or_intror Hh) C) |]. apply is_definition_b in T. apply in_split in Hh. destruct Hh as (a & b & ->).
        exact (O (f :: a) h b f eq_refl C (or_introl eq_refl) T).
Qed.
Lemma check_exports : forall k y es last fs, check_order last (map (fun e => FExport e k (Sym y)) es ++ fs) = check_order last fs.
Proof. intros k y es last fs. induction es as [| e es IH]; [reflexivity | exact IH]. Qed.
Lemma check_run : forall fs c fs1 c' last, run fs c = (fs1, c') -> (check_order last fs1 = Ok tt <-> ord last fs).
Proof.
  induction fs as [| f fs IH]; intros c fs1 c' last H; simpl in H; [injection H as <- <-; simpl; tauto |].
  destruct (deinline f c) as [a c1] eqn:D. destruct (run fs c1) as [b c2] eqn:R. injection H as <- <-. specialize (fun l => IH _ _ _ l R).
  destruct f as [sg | k x es bd n | e k i | i | k i p | n]; simpl in D.
  2: { destruct (exports_cases k x es c) as (z & c3 & E & _). rewrite E in D.
       assert (X : forall l t, check_order l ((match z with Some y => map (fun e => FExport e k (Sym y)) es | None => [] end) ++ t) = check_order l t) by (intros l t; destruct z; [apply check_exports | reflexivity]).
       destruct bd as [| | p]; [| | destruct (fill z c3) as [y c4]]; injection D as <- <-; rewrite <- app_assoc, X; simpl.
       - destruct last; simpl; [split; [discriminate | intros (C & _); specialize (C I); discriminate] |]. rewrite IH. destruct k; simpl; tauto.
       - rewrite IH. destruct k; simpl; rewrite ?orb_true_r, ?orb_false_r; tauto.
       - rewrite IH. destruct k; simpl; rewrite ?orb_true_r, ?orb_false_r; tauto. }
  all: injection D as <- <-; simpl; rewrite ?orb_false_r.
  2-5: rewrite IH; tauto.
  destruct last; simpl; [split; [discriminate | intros (C & _); specialize (C I); discriminate] |]. rewrite IH. tauto.
Qed.

(** Names after the first pass. *)
Lemma exports_bound : forall k x es c fs z c', exports_of k x es c = (fs, z, c') -> c <= c' /\ (z = x \/ (x = None /\ exists n, z = Some (Gen n) /\ c <= n < c')).
Proof.
  intros k x es c fs z c' H. destruct x as [x |]; [rewrite exports_some in H; injection H as <- <- <-; auto |]. destruct es as [| e es]; simpl in H; [injection H as <- <- <-; auto |].
  rewrite exports_some in H. injection H as <- <- <-. split; [lia |]. right. split; [reflexivity |]. exists c. split; [reflexivity | lia].
Qed.
Lemma deinline_ids : forall f c fs c' k, deinline f c = (fs, c') -> c <= c' /\ (ids k fs = ids k [f] \/ (ids k [f] = [] /\ exists n, ids k fs = [Gen n] /\ c <= n < c')).
Proof.
  intros f c fs c' k H. destruct f as [sg | k' x es b n | e k' i | i | k' i p | n]; simpl in H.
  2: { destruct (exports_of k' x es c) as [[ex z] c1] eqn:E. destruct (exports_bound _ _ _ _ _ _ _ E) as [Lc Z]. destruct (exports_cases k' x es c) as (z' & c1' & E' & _). rewrite E in E'. injection E' as Ex <- <-.
       assert (Xi : ids k ex = []) by (rewrite Ex; unfold ids; destruct z; [rewrite exports_items; reflexivity | reflexivity]).
       destruct b as [| | p].
       - injection H as <- <-. split; [exact Lc |]. rewrite ids_app, Xi, !ids_one. simpl. destruct (kind_dec k k'); simpl; [| auto]. destruct Z as [-> | (-> & m & -> & B)]; [left; reflexivity | right; split; [reflexivity | exists m; auto]].
       - injection H as <- <-. split; [exact Lc |]. rewrite ids_app, Xi, !ids_one. simpl. destruct (kind_dec k k'); simpl; [| auto]. destruct Z as [-> | (-> & m & -> & B)]; [left; reflexivity | right; split; [reflexivity | exists m; auto]].
       - destruct (fill z c1) as [y c2] eqn:F. injection H as <- <-. unfold fill in F.
         assert (Y : c1 <= c2 /\ (x = Some y \/ (x = None /\ exists m, y = Gen m /\ c <= m < c2))).
         { destruct z as [z |]; injection F as <- <-; (split; [lia |]).
           - destruct Z as [<- | (-> & m & Z & B)]; [left; reflexivity | right; split; [reflexivity |]]. injection Z as ->. exists m. auto.
           - destruct Z as [<- | (-> & m & Z & B)]; [| discriminate]. right. split; [reflexivity |]. exists c1. split; [reflexivity | lia]. }
         destruct Y as [L2 Y]. split; [lia |]. rewrite ids_app, Xi, (ids_cons k (FSegment _ _ _)), !ids_one. simpl. destruct (kind_dec k k'); simpl; [| auto].
         destruct Y as [-> | (-> & m & -> & B)]; [left; reflexivity | right; split; [reflexivity | exists m; auto]]. }
  all: injection H as <- <-; split; [lia | left; reflexivity].
Qed.
Lemma run_ids : forall k fs c fs1 c', run fs c = (fs1, c') -> (forall n, ~ In (Gen n) (ids k fs)) ->
  c <= c' /\ (forall x, In x (ids k fs) -> In x (ids k fs1)) /\ (forall x, In x (ids k fs1) -> In x (ids k fs) \/ exists n, x = Gen n /\ c <= n < c') /\ (NoDup (ids k fs1) <-> NoDup (ids k fs)).
Proof.
  intros k fs. induction fs as [| f fs IH]; intros c fs1 c' H G; simpl in H; [injection H as <- <-; repeat split; auto |].
  destruct (deinline f c) as [a c1] eqn:D. destruct (run fs c1) as [b c2] eqn:R. injection H as <- <-. rewrite ids_cons in G.
  assert (Gf : forall n, ~ In (Gen n) (ids k [f])) by (intros n C; apply (G n); apply in_or_app; left; exact C).
  assert (Gs : forall n, ~ In (Gen n) (ids k fs)) by (intros n C; apply (G n); apply in_or_app; right; exact C).
  destruct (deinline_ids _ _ _ _ k D) as [L1 A]. destruct (IH _ _ _ R Gs) as (L2 & B1 & B2 & B3). rewrite ids_app, (ids_cons k f fs). split; [lia |]. destruct A as [A | (A0 & m & A & Bm)].
  - rewrite A. split; [| split].
    + intros x Hx. apply in_app_or in Hx. apply in_or_app. destruct Hx as [Hx | Hx]; auto.
    + intros x Hx. apply in_app_or in Hx. destruct Hx as [Hx | Hx]; [left; apply in_or_app; auto |]. destruct (B2 x Hx) as [Hx' | (n & -> & Bn)]; [left; apply in_or_app; auto | right; exists n; split; [reflexivity | lia]].
    + rewrite !nodup_app_iff, B3. split; intros (N1 & N2 & N3); (split; [exact N1 | split; [exact N2 |]]); intros x Hx C; [exact (N3 x Hx (B1 x C)) |]. destruct (B2 x C) as [C' | (n & -> & _)]; [exact (N3 x Hx C') | exact (Gf n Hx)].
  - rewrite A, A0. simpl. split; [| split].
    + intros x Hx. right. exact (B1 x Hx).
    + intros x [<- | Hx]; [right; exists m; split; [reflexivity | lia] |]. destruct (B2 x Hx) as [Hx' | (n & -> & Bn)]; [left; exact Hx' | right; exists n; split; [reflexivity | lia]].
    + rewrite <- B3. split; [intro N; inversion N; assumption |]. intro N. constructor; [| exact N]. intro C. destruct (B2 _ C) as [C' | (n & E & Bn)]; [exact (Gs _ C') |]. injection E as ->. lia.
Qed.

(** Registration. *)
Fixpoint register_list (k : kind) (l : list item) (s : namespace) : res namespace := match l with [] => Ok s | e :: l => bind (register k (fst e) s) (register_list k l) end.
Lemma register_list_app : forall k a b s, register_list k (a ++ b) s = bind (register_list k a s) (register_list k b).
Proof. intros k a b. induction a as [| e a IH]; intro s; simpl; [reflexivity |]. destruct (register k (fst e) s); simpl; [apply IH | reflexivity]. Qed.
Lemma bind_ext : forall A B (r : res A) (f g : A -> res B), (forall a, f a = g a) -> bind r f = bind r g. Proof. intros A B [a | e] f g H; simpl; auto. Qed.
Lemma sigs_list : forall k sg s, register_sigs k sg s = register_list k (field_items k (FImport sg)) s.
Proof.
  intros k sg. induction sg as [| [[k' x] n] sg IH]; intro s; simpl; [reflexivity |]. destruct (kind_dec k k'); simpl; [apply bind_ext; exact IH | apply IH].
Qed.
Lemma all_list : forall k fs s, register_all k fs s = register_list k (items k fs) s.
Proof.
  intros k fs. induction fs as [| f fs IH]; intro s; [reflexivity |]. rewrite items_cons, register_list_app. destruct f as [sg | k' x es b n | | | |]; cbn [register_all]; try apply IH.
  - rewrite sigs_list. apply bind_ext. exact IH.
  - simpl. destruct (kind_dec k k'); simpl; [| apply IH]. destruct (register k x s); simpl; [apply IH | reflexivity].
Qed.
Lemma in_idl : forall l x, In x (idl l) <-> exists n, option_map fst (nth_error l n) = Some (Some x).
Proof.
  intros l x. unfold idl, item in *. rewrite in_flat_map. split.
  - intros (e & He & Hx). apply In_nth_error in He. destruct He as (n & He). exists n. rewrite He. simpl. destruct (fst e); simpl in Hx; [destruct Hx as [<- | []]; reflexivity | destruct Hx].
  - intros (n & H). destruct (nth_error l n) as [e |] eqn:E; simpl in H; [| discriminate]. injection H as H. exists e. split; [exact (nth_error_In _ _ E) |]. rewrite H. left. reflexivity.
Qed.
Lemma list_accepts : forall k l0 l s, holds l s -> NoDup (idl l) -> ((exists s', register_list k l0 s = Ok s') <-> NoDup (idl (l ++ l0))).
Proof.
  intros k l0. induction l0 as [| e l0 IH]; intros l s H N; simpl; [rewrite app_nil_r; split; eauto |].
  replace (l ++ e :: l0) with ((l ++ [e]) ++ l0) by (rewrite <- app_assoc; reflexivity). destruct (register k (fst e) s) as [s1 | er] eqn:R; simpl.
  - apply IH; [exact (register_ok _ _ _ _ _ H R) |]. rewrite idl_app. unfold register in R. simpl. destruct (fst e) as [x |]; simpl; [| rewrite app_nil_r; exact N].
    destruct (get x (ns_names s)) eqn:G; [discriminate |]. apply nodup_app_iff. split; [exact N |]. split; [repeat constructor; intros [] |]. intros z Hz [<- | []]. apply in_idl in Hz. destruct Hz as (n & Hz). apply (proj2 H) in Hz. congruence.
  - split; [intros (s' & C); discriminate |]. intro C. exfalso. unfold register in R. rewrite !idl_app in C. simpl in C. destruct (fst e) as [x |]; [| discriminate]. destruct (get x (ns_names s)) as [n |] eqn:G; [| discriminate].
    apply nodup_app_iff in C. destruct C as (C & _). apply nodup_app_iff in C. destruct C as (_ & _ & C). apply (C x); [apply in_idl; exists n; apply (proj2 H); exact G | left; reflexivity].
Qed.
Lemma all_accepts : forall k fs, (exists s, register_all k fs empty = Ok s) <-> NoDup (ids k fs).
Proof. intros k fs. rewrite all_list. exact (list_accepts k (items k fs) [] empty empty_holds (NoDup_nil _)). Qed.

(** References. *)
Lemma idx_accepts : forall ns l k i, (forall k, holds (l k) (ns k)) -> ((exists j, resolve_idx ns k i = Ok j) <-> match i with Sym x => In x (idl (l k)) | Num _ => True end).
Proof.
  intros ns l k [n | x] H; simpl; [split; eauto |]. rewrite in_idl. destruct (H k) as [_ G]. destruct (get x (ns_names (ns k))) as [n |] eqn:E.
  - split; [intros _; exists n; apply G; exact E | eauto].
  - split; [intros (j & C); discriminate | intros (n & C); apply G in C; congruence].
Qed.
Lemma fields_accept : forall ns l fs, (forall k, holds (l k) (ns k)) -> ((exists out, resolve_fields ns fs = Ok out) <-> Forall (known (fun k => idl (l k))) fs).
Proof.
  intros ns l fs H. induction fs as [| f fs IH]; cbn [resolve_fields]; [split; [constructor | eauto] |].
  assert (F : (exists f', resolve_field ns f = Ok f') <-> known (fun k => idl (l k)) f).
  { destruct f as [sg | k x es b n | e k i | i | k [i |] p | n]; simpl; try (split; eauto; fail).
    - pose proof (idx_accepts ns l k i H) as Q. destruct (resolve_idx ns k i); simpl; destruct i; split; intro X; try (apply Q in X || (apply Q; eauto)); eauto; destruct X as (? & X); discriminate.
    - pose proof (idx_accepts ns l Func i H) as Q. destruct (resolve_idx ns Func i); simpl; destruct i; split; intro X; try (apply Q in X || (apply Q; eauto)); eauto; destruct X as (? & X); discriminate.
    - pose proof (idx_accepts ns l k i H) as Q. destruct (resolve_idx ns k i); simpl; destruct i; split; intro X; try (apply Q in X || (apply Q; eauto)); eauto; destruct X as (? & X); discriminate. }
  destruct (resolve_field ns f) as [f' | e]; simpl.
  - assert (Kf : known (fun k => idl (l k)) f) by (apply F; eauto). destruct (resolve_fields ns fs) as [fs' | e]; simpl.
    + split; [intros _; constructor; [exact Kf | apply IH; eauto] | eauto].
    + split; [intros (o & C); discriminate |]. intro C. inversion C as [| ? ? _ C']; subst. apply IH in C'. destruct C' as (o & C'). discriminate.
  - split; [intros (o & C); discriminate |]. intro C. inversion C as [| ? ? C' _]; subst. apply F in C'. destruct C' as (o & C'). discriminate.
Qed.
Lemma known_deinline : forall l f c fs c', deinline f c = (fs, c') -> (forall k x, In x (ids k fs) -> In x (l k)) -> (Forall (known l) fs <-> known l f).
Proof.
  intros l f c fs c' H L. destruct f as [sg | k x es b n | e k i | i | k i p | n]; simpl in H.
  2: { simpl. split; [auto |]. intros _. destruct (exports_cases k x es c) as (z & c1 & E & _ & _). rewrite E in H.
       assert (X : forall y, In y (l k) -> z = Some y -> Forall (known l) (match z with Some y => map (fun e => FExport e k (Sym y)) es | None => [] end)).
       { intros y Hy ->. clear -Hy. induction es; constructor; auto. }
       assert (X0 : z = None -> Forall (known l) (match z with Some y => map (fun e => FExport e k (Sym y)) es | None => [] end)) by (intros ->; constructor).
       assert (Last : forall t y w, (fs = t ++ [FImport [(k, Some y, w)]] \/ fs = t ++ [FItem k (Some y) [] Defined w]) -> In y (l k)).
       { intros t y w Hf. apply L. destruct Hf as [-> | ->]; rewrite ids_app, ids_one; apply in_or_app; right; simpl; (destruct (kind_dec k k) as [_ | C]; [left; reflexivity | contradiction]). }
       destruct b as [| | p].
       - injection H as Hf _. rewrite <- Hf. apply Forall_app. split; [| repeat constructor]. destruct z as [y |]; [apply (X y); [| reflexivity] | apply X0; reflexivity]. eapply Last. left. symmetry. exact Hf.
       - injection H as Hf _. rewrite <- Hf. apply Forall_app. split; [| repeat constructor]. destruct z as [y |]; [apply (X y); [| reflexivity] | apply X0; reflexivity]. eapply Last. right. symmetry. exact Hf.
       - destruct (fill z c1) as [y c2] eqn:Fl. injection H as Hf _.
         assert (Hy : In y (l k)).
         { apply L. rewrite <- Hf, ids_app, (ids_cons k (FSegment _ _ _)), !ids_one. apply in_or_app. right. simpl. destruct (kind_dec k k) as [_ | C]; [left; reflexivity | contradiction]. }
         rewrite <- Hf. apply Forall_app. split; [destruct z as [z |]; [simpl in Fl; injection Fl as -> _; apply (X y Hy); reflexivity | apply X0; reflexivity] |]. constructor; [exact Hy | repeat constructor]. }
  all: injection H as <- <-; split; [intro F; inversion F; assumption | intro F; constructor; [exact F | constructor]].
Qed.
Lemma known_run : forall l fs c fs1 c', run fs c = (fs1, c') -> (forall k x, In x (ids k fs1) -> In x (l k)) -> (Forall (known l) fs1 <-> Forall (known l) fs).
Proof.
  intros l fs. induction fs as [| f fs IH]; intros c fs1 c' H L; simpl in H; [injection H as <- <-; split; constructor |].
  destruct (deinline f c) as [a c1] eqn:D. destruct (run fs c1) as [b c2] eqn:R. injection H as <- <-.
  rewrite Forall_app, (known_deinline l _ _ _ _ D), (IH _ _ _ R); [| intros k x Hx; apply L; rewrite ids_app; apply in_or_app; auto | intros k x Hx; apply L; rewrite ids_app; apply in_or_app; auto].
  split; [intros [A B]; constructor; assumption | intro F; inversion F; auto].
Qed.
Lemma known_ext : forall l l' fs, source fs -> (forall k x, In (Src x) (l k) <-> In (Src x) (l' k)) -> (Forall (known l) fs <-> Forall (known l') fs).
Proof.
  intros l l' fs S E. assert (One : forall f, source_field f -> (known l f <-> known l' f)).
  { intros [| | e k [n | [x | x]] | [n | [x | x]] | k [[n | [x | x]] |] p |] Sf; simpl in *; try tauto; apply E. }
  induction S as [| f fs Sf S IH]; [split; constructor |]. split; intro F; inversion F; subst; constructor; try (apply One; assumption); apply IH; assumption.
Qed.

Lemma accepts : forall fs, source fs -> plain_ids fs -> ((exists out, resolve fs = Ok out) <-> acceptable fs).
Proof.
  intros fs S P. unfold resolve, acceptable. destruct (run fs 0) as [fs1 c] eqn:U.
  assert (O : check_order false fs1 = Ok tt <-> ordered fs) by (rewrite (check_run _ _ _ _ false U), ord_iff; split; [intros [X _]; exact X | intro X; split; [exact X | discriminate]]).
  assert (N : forall k, (exists s, register_all k fs1 empty = Ok s) <-> NoDup (ids k fs)) by (intro k; rewrite all_accepts; apply (run_ids k _ _ _ _ U (P k))).
  assert (K : Forall (known (fun k => ids k fs1)) fs1 <-> Forall (known (fun k => ids k fs)) fs).
  { rewrite (known_run _ _ _ _ _ U); [| auto]. apply known_ext; [exact S |]. intros k x. destruct (run_ids k _ _ _ _ U (P k)) as (_ & A & B & _). split; [| apply A]. intro H. destruct (B _ H) as [H' | (n & C & _)]; [exact H' | discriminate]. }
  destruct (check_order false fs1) as [[] | e]; simpl; [| split; [intros (o & C); discriminate | intros (C & _); apply O in C; discriminate]].
  assert (Split : forall k (g : namespace -> res (list field)) (Q : Prop), (forall s, register_all k fs1 empty = Ok s -> ((exists out, g s = Ok out) <-> Q)) -> ((exists out, bind (register_all k fs1 empty) g = Ok out) <-> NoDup (ids k fs) /\ Q)).
  { intros k g Q H. rewrite <- N. destruct (register_all k fs1 empty) as [s | e]; simpl; [rewrite (H s eq_refl); split; [eauto | intros [_ X]; exact X] |]. split; [intros (o & C); discriminate | intros ((s & C) & _); discriminate]. }
  assert (T : (exists out, bind (register_all Func fs1 empty) (fun f => bind (register_all Table fs1 empty) (fun t => bind (register_all Memory fs1 empty) (fun m => bind (register_all Global fs1 empty) (fun g => bind (register_all Tag fs1 empty) (fun x =>
      resolve_fields (fun k => match k with Func => f | Table => t | Memory => m | Global => g | Tag => x end) fs1))))) = Ok out) <->
      NoDup (ids Func fs) /\ NoDup (ids Table fs) /\ NoDup (ids Memory fs) /\ NoDup (ids Global fs) /\ NoDup (ids Tag fs) /\ Forall (known (fun k => ids k fs)) fs).
  { apply Split. intros f Rf. apply Split. intros t Rt. apply Split. intros m Rm. apply Split. intros g Rg. apply Split. intros x Rx. rewrite <- K.
    apply (fields_accept _ (fun k => items k fs1)). intros []; eapply (register_all_ok _ fs1 []); try exact empty_holds; assumption. }
  rewrite T. split.
  - intros (A1 & A2 & A3 & A4 & A5 & A6). split; [apply O; reflexivity |]. split; [intros []; assumption | exact A6].
  - intros (_ & A & B). repeat split; try apply A. exact B.
Qed.
