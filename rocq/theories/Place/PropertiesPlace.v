(** C65: places of sections. *)
From Coq Require Import List Arith Bool Lia Sorted.
Import ListNotations.
From Verif.Place Require Import Model Spec Proofs.

(** Every custom section of the text is where it is asked to be: before the first known section, just before or just after a known section (or where it would be), or after the last one. *)
Theorem C65_places : forall m l1 c l2, encode m = l1 ++ Custom c :: l2 ->
  (forall s r, In s l1 -> known s = Some r -> may_precede r (wanted c)) /\ (forall s r, In s l2 -> known s = Some r -> may_follow r (wanted c)).
Proof.
  intros m l1 c l2 E. pose proof (between_all m) as H. rewrite E in H. apply between_split in H. destruct H as (k & H1 & K & H2). cbn [key] in K, H2. rewrite place_wanted in K, H2.
  split; intros s r Hin Hk.
  - apply (between_in _ _ _ _ H1) in Hin. destruct s as [b | | | | |]; try discriminate; injection Hk as <-; cbn [key] in Hin; destruct (wanted c) as [| a | a |]; cbn [key_place may_precede] in *; try lia; exact I.
  - apply (between_in _ _ _ _ H2) in Hin. destruct s as [b | | | | |]; try discriminate; injection Hk as <-; cbn [key] in Hin; destruct (wanted c) as [| a | a |]; cbn [key_place may_follow] in *; try lia; try exact I; destruct b; cbn [rank] in *; lia.
Qed.
Print Assumptions C65_places.

(** Every custom section of the text is written, once, and those of the same place in the order of the text. *)
Theorem C65_all : forall m p, filter (at_place p) (text_customs (encode m)) = filter (at_place p) (customs m).
Proof.
  intros m p. unfold encode, typed_section, code_section. repeat rewrite text_app. rewrite text_repeat.
  repeat rewrite (text_if _ [] [Known _]) by reflexivity. rewrite (text_if (items m Func =? 0)) by (try reflexivity; destruct (has_hints m); reflexivity). repeat rewrite text_if by reflexivity.
  repeat rewrite filter_app. repeat rewrite filter_text. cbn [filter app]. destruct p as [| [] | [] |]; cbn; repeat rewrite app_nil_r; reflexivity.
Qed.
Print Assumptions C65_all.

(** The known sections come in the order of the binary format. *)
Theorem C65_order : forall m, StronglySorted le (ranks (encode m)).
Proof.
  intro m.
  assert (G : forall l a b, between a l b -> StronglySorted le (ranks l) /\ Forall (fun r => a <= 4 * r + 2) (ranks l)).
  { induction l as [| s l IH]; intros a b H; [split; constructor |]. destruct H as [A H]. apply IH in H. destruct H as [S F]. cbn [ranks]. destruct (known s) as [r |] eqn:K.
    - assert (E : key s = 4 * r + 2) by (destruct s; try discriminate; injection K as <-; reflexivity). split; [constructor; [exact S |] | constructor; [lia |]]; (eapply Forall_impl; [| exact F]); cbv beta; intros; lia.
    - split; [exact S |]. eapply Forall_impl; [| exact F]. cbv beta. intros. lia. }
  exact (proj1 (G _ _ _ (between_all m))).
Qed.
Print Assumptions C65_order.

(** A known section is written once if it has items and else not at all; [start] is written once for each start field, the code if there are functions. *)
Theorem C65_once : forall m a, occurrences a (encode m) = match a with Start => items m Start | Code => min 1 (items m Func) | _ => min 1 (items m a) end.
Proof.
  intros m a. unfold encode. repeat rewrite occ_app. rewrite occ_code. repeat rewrite occ_typed. repeat rewrite occ_customs. rewrite occ_repeat.
  repeat (rewrite occ_if by discriminate).
  destruct a; cbn [anchor_is anchor_eq_dec]; cbn; lia.
Qed.
Print Assumptions C65_once.

(** Branch hints come before the code, and after all that precedes the code; the names come after all known sections. *)
Theorem C65_made : forall m l1 x l2, encode m = l1 ++ x :: l2 -> x = Hints \/ x = Names ->
  (forall s r, In s l1 -> known s = Some r -> may_precede r (match x with Hints => Before Code | _ => AfterLast end)) /\
  (forall s r, In s l2 -> known s = Some r -> may_follow r (match x with Hints => Before Code | _ => AfterLast end)).
Proof.
  intros m l1 x l2 E X. pose proof (between_all m) as H. rewrite E in H. apply between_split in H. destruct H as (k & H1 & K & H2).
  split; intros s r Hin Hk; [apply (between_in _ _ _ _ H1) in Hin | apply (between_in _ _ _ _ H2) in Hin]; destruct X as [-> | ->]; cbn [key may_precede may_follow rank] in *; try exact I;
    destruct s as [b | | | | |]; try discriminate; injection Hk as <-; cbn [key] in Hin; try lia; destruct b; cbn [rank] in *; lia.
Qed.
Print Assumptions C65_made.

(** A module with functions, branch hints and data, and custom sections of many places. *)
Example C65_case :
  encode (mkM (fun a => match a with Type_ => 1 | Func => 2 | Data => 1 | _ => 0 end) true true true false [Raw (After Func) 1; Producers 2; Raw (Before Code) 3; Dylink0 4; Raw (After Func) 5; Raw (Before Memory) 6; Raw (After Code) 7]) =
  [Custom (Dylink0 4); Known Type_; Known Func; Custom (Raw (After Func) 1); Custom (Raw (After Func) 5); Custom (Raw (Before Memory) 6); DataCount; Custom (Raw (Before Code) 3); Hints; Known Code; Custom (Raw (After Code) 7); Known Data; Custom (Producers 2); Names].
Proof. reflexivity. Qed.
