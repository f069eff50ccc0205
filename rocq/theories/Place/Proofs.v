(** Proofs about the places of sections. *)
From Coq Require Import List Arith Bool Lia.
Import ListNotations.
From Verif.Place Require Import Model Spec.

(** A key for every section that grows along the binary. *)
Definition key_place (p : place) : nat := match p with BeforeFirst => 0 | Before a => 4 * rank a | After a => 4 * rank a + 3 | AfterLast => 100 end.
Definition key (s : section) : nat :=
  match s with Known a => 4 * rank a + 2 | DataCount => 46 | Custom c => key_place (place_of c) | Hints => 49 | Names => 101 | Dwarf => 102 end.
Fixpoint between (a : nat) (l : list section) (b : nat) : Prop := match l with [] => a <= b | s :: l => a <= key s /\ between (key s) l b end.
Lemma between_le : forall l a b, between a l b -> a <= b. Proof. induction l as [| s l IH]; intros a b H; [exact H |]. destruct H as [A H]. apply IH in H. lia. Qed.
Lemma between_weak : forall l a a' b b', between a l b -> a' <= a -> b <= b' -> between a' l b'.
Proof. induction l as [| s l IH]; intros a a' b b' H A B; simpl in *; [lia |]. destruct H as [K H]. split; [lia | exact (IH _ _ _ _ H (le_n _) B)]. Qed.
Lemma between_app : forall x y a b c, between a x b -> between b y c -> between a (x ++ y) c.
Proof. induction x as [| s x IH]; intros y a b c H K; simpl in *; [exact (between_weak _ _ _ _ _ K H (le_n _)) |]. destruct H as [A H]. split; [exact A | exact (IH _ _ _ _ H K)]. Qed.
Lemma between_customs : forall m p, between (key_place p) (custom_sections m p) (key_place p).
Proof.
  intros m p. unfold custom_sections. induction (customs m) as [| c l IH]; [simpl; lia |]. cbn [flat_map]. destruct (place_eq_dec (place_of c) p) as [<- |]; [| exact IH]. cbn [app between key]. split; [lia | exact IH].
Qed.
Lemma between_typed : forall m a, between (4 * rank a) (typed_section m a) (4 * rank a + 3).
Proof.
  intros m a. unfold typed_section. eapply between_app; [exact (between_customs m (Before a)) |]. eapply between_app; [| exact (between_customs m (After a))].
  destruct (items m a =? 0); cbn [between key key_place]; lia.
Qed.
Lemma between_code : forall m, between 48 (code_section m) 51.
Proof.
  intro m. unfold code_section. eapply between_app; [exact (between_customs m (Before Code)) |]. eapply between_app; [| exact (between_customs m (After Code))].
  destruct (items m Func =? 0); [| destruct (has_hints m)]; cbn [between key key_place rank app]; lia.
Qed.
Lemma between_repeat : forall n, between 38 (repeat (Known Start) n) 38. Proof. induction n as [| n IH]; cbn [repeat between key rank]; [lia |]. split; [lia | exact IH]. Qed.
Lemma between_all : forall m, between 0 (encode m) 102.
Proof.
  intro m. unfold encode.
  assert (T : forall a x y, x <= 4 * rank a -> 4 * rank a + 3 <= y -> between x (typed_section m a) y) by (intros a x y X Y; exact (between_weak _ _ _ _ _ (between_typed m a) X Y)).
  assert (C : forall p x y, x <= key_place p -> key_place p <= y -> between x (custom_sections m p) y) by (intros p x y X Y; exact (between_weak _ _ _ _ _ (between_customs m p) X Y)).
  apply between_app with 0; [apply C; cbn; lia |].
  apply between_app with 7; [apply T; cbn; lia |]. apply between_app with 11; [apply T; cbn; lia |]. apply between_app with 15; [apply T; cbn; lia |]. apply between_app with 19; [apply T; cbn; lia |].
  apply between_app with 23; [apply T; cbn; lia |]. apply between_app with 27; [apply T; cbn; lia |]. apply between_app with 31; [apply T; cbn; lia |]. apply between_app with 35; [apply T; cbn; lia |].
  apply between_app with 36; [apply C; cbn; lia |]. apply between_app with 38; [apply (between_weak _ _ _ _ _ (between_repeat _)); lia |]. apply between_app with 39; [apply C; cbn; lia |].
  apply between_app with 43; [apply T; cbn; lia |]. apply between_app with 47; [destruct (needs_count m); cbn; lia |]. apply between_app with 51; [apply (between_weak _ _ _ _ _ (between_code m)); lia |].
  apply between_app with 55; [apply T; cbn; lia |]. apply between_app with 100; [apply C; cbn; lia |]. apply between_app with 101; [destruct (has_names m); cbn; lia | destruct (has_dwarf m); cbn; lia].
Qed.
Lemma between_in : forall l a b s, between a l b -> In s l -> a <= key s <= b.
Proof. induction l as [| x l IH]; intros a b s H K; [destruct K |]. destruct H as [A H]. destruct K as [-> | K]; [apply between_le in H; lia |]. apply (IH _ _ _ H) in K. lia. Qed.
Lemma between_split : forall x y a b, between a (x ++ y) b -> exists c, between a x c /\ between c y b.
Proof. induction x as [| s x IH]; intros y a b H; simpl in *; [exists a; split; [simpl; lia | exact H] |]. destruct H as [A H]. apply IH in H. destruct H as (c & H & K). exists c. auto. Qed.

Lemma place_wanted : forall c, place_of c = wanted c. Proof. intros []; reflexivity. Qed.

(** Nothing is lost. *)
Lemma text_app : forall a b, text_customs (a ++ b) = text_customs a ++ text_customs b. Proof. intros a b. apply flat_map_app. Qed.
Lemma filter_text : forall m p q, filter (at_place p) (text_customs (custom_sections m q)) = if place_eq_dec q p then filter (at_place p) (customs m) else [].
Proof.
  intros m p q. unfold custom_sections. induction (customs m) as [| c l IH]; [simpl; destruct (place_eq_dec q p); reflexivity |]. cbn [flat_map]. rewrite text_app, filter_app, IH. cbn [filter].
  unfold at_place at 1 3. rewrite <- (place_wanted c). destruct (place_eq_dec (place_of c) q) as [E | E]; cbn [text_customs flat_map app filter]; unfold at_place at 1; try rewrite <- (place_wanted c).
  - rewrite E. destruct (place_eq_dec q p); reflexivity.
  - destruct (place_eq_dec q p) as [-> | N]; [| reflexivity]. destruct (place_eq_dec (place_of c) p); [contradiction | reflexivity].
Qed.
Lemma text_repeat : forall n, text_customs (repeat (Known Start) n) = []. Proof. induction n as [| n IH]; [reflexivity | exact IH]. Qed.
Lemma text_if : forall (b : bool) (x y : list section), text_customs x = [] -> text_customs y = [] -> text_customs (if b then x else y) = []. Proof. intros [|]; auto. Qed.

(** How often known sections are written. *)
Definition anchor_is (a b : anchor) : nat := if anchor_eq_dec a b then 1 else 0.
Lemma occ_app : forall a x y, occurrences a (x ++ y) = occurrences a x + occurrences a y. Proof. intros a x y. unfold occurrences. rewrite filter_app. apply app_length. Qed.
Lemma occ_customs : forall m a p, occurrences a (custom_sections m p) = 0.
Proof. intros m a p. unfold custom_sections. induction (customs m) as [| c l IH]; [reflexivity |]. cbn [flat_map]. rewrite occ_app, IH. destruct (place_eq_dec (place_of c) p); reflexivity. Qed.
Lemma occ_known : forall a b, occurrences a [Known b] = anchor_is a b. Proof. intros a b. unfold occurrences, anchor_is. cbn. destruct (anchor_eq_dec a b); reflexivity. Qed.
Lemma occ_typed : forall m a b, occurrences a (typed_section m b) = anchor_is a b * min 1 (items m b).
Proof. intros m a b. unfold typed_section. rewrite !occ_app, !occ_customs. destruct (items m b) as [| n]; cbn [Nat.eqb]; [cbn; lia |]. rewrite occ_known. cbn [Nat.min]. lia. Qed.
Lemma occ_code : forall m a, occurrences a (code_section m) = anchor_is a Code * min 1 (items m Func).
Proof. intros m a. unfold code_section. rewrite !occ_app, !occ_customs. destruct (items m Func) as [| n]; cbn [Nat.eqb]; [cbn; lia |]. rewrite occ_app, occ_known. cbn [Nat.min]. destruct (has_hints m); unfold occurrences; cbn [filter length]; lia. Qed.
Lemma occ_repeat : forall a n, occurrences a (repeat (Known Start) n) = anchor_is a Start * n.
Proof. intros a n. induction n as [| n IH]; [cbn; lia |]. change (repeat (Known Start) (S n)) with ([Known Start] ++ repeat (Known Start) n). rewrite occ_app, occ_known, IH. lia. Qed.
Lemma occ_if : forall a (b : bool) s, (forall x, s <> Known x) -> occurrences a (if b then [s] else []) = 0.
Proof. intros a [|] s N; [| reflexivity]. unfold occurrences. cbn. destruct s as [x | | | | |]; try reflexivity. destruct (N x eq_refl). Qed.
