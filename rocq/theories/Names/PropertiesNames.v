(** C24, C25 and C49: kebab strings, the order of component names, and their parts. *)
From Coq Require Import ZArith Lia List Bool String Permutation.
From Verif Require Import Base.Prelude Names.Kebab Names.KebabProofs Names.Name Names.NameProofs.
Import ListNotations.
Open Scope Z_scope.

(** * C24: kebab strings. *)
(** [KebabStr::new] accepts exactly the words of the label grammar
    ([KebabProofs.label]). *)
Theorem C24_grammar : forall s, is_kebab_case s = true <-> label s.
Proof. exact kebab_label. Qed.
Print Assumptions C24_grammar.

(** Two accepted strings are equal exactly when they are the same up to ASCII
    case, exactly when comparing says so, and then hash alike. *)
Theorem C24_equality : forall a b, is_kebab_case a = true -> is_kebab_case b = true ->
  (kebab_eq a b = true <-> map to_lower a = map to_lower b) /\
  (kebab_eq a b = true <-> kebab_cmp a b = Datatypes.Eq) /\
  (kebab_eq a b = true <-> kebab_hash a = kebab_hash b).
Proof.
  intros a b Ha Hb. apply kebab_ascii in Ha, Hb. pose proof (eq_lower a b Ha Hb) as E. repeat split; try apply E.
  - intros H. apply lex_eq, E, H.
  - intros H. apply E, lex_eq, H.
  - intros H. apply E in H. unfold kebab_hash. rewrite !ascii_len by assumption. rewrite H.
    f_equal. apply (f_equal (@List.length Z)) in H. rewrite !map_length in H. lia.
  - intros H. apply E. inversion H. reflexivity.
Qed.
Print Assumptions C24_equality.

(** The comparison is a total order. *)
Theorem C24_order : (forall a b, kebab_cmp b a = CompOpp (kebab_cmp a b)) /\
  (forall a b c, kebab_cmp a b <> Datatypes.Gt -> kebab_cmp b c <> Datatypes.Gt ->
    kebab_cmp a c <> Datatypes.Gt /\ (kebab_cmp a b = Datatypes.Lt \/ kebab_cmp b c = Datatypes.Lt -> kebab_cmp a c = Datatypes.Lt)).
Proof. split; [apply lex_opp|apply lex_trans]. Qed.
Print Assumptions C24_order.

Example C24_case : is_kebab_case (lit "a0-000-3d4a-54FF") = true /\ is_kebab_case (lit "a-b--c") = false /\
  kebab_eq (lit "a-B") (lit "a-b") = true /\ kebab_cmp (lit "a-B") (lit "a-c") = Datatypes.Lt.
Proof. repeat split. Qed.

(** * C49: parsing component names and taking them apart. *)
(** Parsing a label, constructor, method, static or interface name accepts
    exactly the grammar ([NameProofs.plain_name]) and finds its kind. *)
Theorem C49_grammar : forall semver nested s k, plain_kind k = true ->
  (new_name semver nested s = Some k <-> plain_name nested k s).
Proof. intros semver nested s k P. split; [intros H; exact (parse_sound _ _ _ _ H P)|apply parse_complete]. Qed.
Print Assumptions C49_grammar.

(** A string has at most one kind; the other kinds begin with what says so. *)
Theorem C49_other_kinds : forall semver nested s k, new_name semver nested s = Some k -> plain_kind k = false ->
  exists r, s = lit match k with PUrl => "url=" | PHash => "integrity=" | _ => "unlocked-dep=" end ++ r \/
    (k = PDependency /\ s = lit "locked-dep=" ++ r).
Proof.
  intros semver nested s k H P. unfold new_name in H. destruct (parse semver nested s) as [[k' r]|] eqn:E; [|discriminate].
  destruct r; [|discriminate]. inversion H; subst k'. clear H. unfold parse in E.
  destruct (strip_prefix CONSTRUCTOR s); [apply ret_some in E as [<- _]; discriminate|].
  destruct (strip_prefix METHOD s); [apply ret_some in E as [<- _]; discriminate|].
  destruct (strip_prefix STATIC s); [apply ret_some in E as [<- _]; discriminate|].
  destruct (strip_prefix (lit "unlocked-dep=") s) eqn:S; [apply ret_some in E as [<- _]; apply strip_some in S; eauto|].
  destruct (strip_prefix (lit "locked-dep=") s) eqn:S0; [apply ret_some in E as [<- _]; apply strip_some in S0; eauto|].
  destruct (strip_prefix (lit "url=") s) eqn:S1; [apply ret_some in E as [<- _]; apply strip_some in S1; eauto|].
  destruct (strip_prefix (lit "integrity=") s) eqn:S2; [apply ret_some in E as [<- _]; apply strip_some in S2; eauto|].
  destruct (contains 58 s); apply ret_some in E as [<- _]; discriminate.
Qed.
Print Assumptions C49_other_kinds.

(** The resource and the function of a method or static name. *)
Theorem C49_resource_func : forall semver nested s k, new_name semver nested s = Some k -> In k [PMethod; PStatic] ->
  exists x r m, (kind_of k s = Method x \/ kind_of k s = Static x) /\ resource x = Some r /\ method x = Some m /\
    s = (match k with PMethod => lit "[method]" | _ => lit "[static]" end) ++ r ++ lit "." ++ m /\ label r /\ label m.
Proof.
  intros semver nested s k H [<-|[<-|[]]]; apply C49_grammar in H; try reflexivity; destruct H as (r & m & -> & L1 & L2);
  exists (r ++ lit "." ++ m), r, m; destruct (resource_parts r m L1); auto 10.
Qed.
Print Assumptions C49_resource_func.

(** The parts of an interface name are what it was made of, when there is no
    colon in its version. Missing: names whose version has one, where [package]
    panics (refuted below).  Such a name is no valid interface name once the
    version is checked, but [ComponentName::new] accepts it. *)
Theorem C49_interface_partial : forall semver nested s, new_name semver nested s = Some PInterface ->
  (forall v, version s = Some v -> ~ In 58 v) ->
  exists ns pk i ps, namespace s = Some ns /\ package s = Some pk /\ interface s = Some i /\
    projection s = Some (i ++ each 47 ps) /\ lower_label pk /\ label i /\ Forall label ps /\
    (nested = false -> lower_label ns /\ ps = []) /\
    s = ns ++ lit ":" ++ pk ++ lit "/" ++ (i ++ each 47 ps) ++ (match version s with Some v => lit "@" ++ v | None => [] end).
Proof.
  intros semver nested s H NV. apply C49_grammar in H; [|reflexivity].
  destruct H as (p & v & -> & (n & q & nss & projs & -> & L1 & L2 & F1 & F2 & Hn & Hr) & HV).
  destruct projs as [|i ps]; [exfalso; apply Hr; reflexivity|].
  inversion F2 as [|? ? Li Lps]; subst.
  destruct (each_last 58 q nss) as (pre & pk & Eq1 & Ipk & Hpk).
  assert (Lpk : lower_label pk) by (destruct Ipk as [<-|Ipk]; [exact L2|rewrite Forall_forall in F1; apply F1, Ipk]).
  assert (Fall : Forall label (q :: nss)) by (constructor; [apply L2|apply lower_labels, F1]).
  set (ns := n ++ pre).
  assert (S : (n ++ each 58 (q :: nss) ++ each 47 (i :: ps)) ++ v = ns ++ 58 :: pk ++ 47 :: (i ++ each 47 ps) ++ v).
  { unfold ns. rewrite Eq1. cbn [each]. repeat (rewrite <- ?app_assoc; cbn [app]). reflexivity. }
  assert (NN : forall c, kebab_char c = false -> c <> 58 -> ~ In c ns).
  { intros c K N X. assert (In c (n ++ each 58 (q :: nss))) as Y.
    { rewrite Eq1. unfold ns in X. rewrite in_app_iff in X |- *. rewrite in_app_iff. tauto. }
    apply in_app_or in Y as [Y|Y]; [exact (label_not_in _ _ (proj1 L1) K Y)|exact (each_not_in _ _ _ K N Fall Y)]. }
  assert (Npr : forall c, kebab_char c = false -> c <> 47 -> ~ In c (i ++ each 47 ps)).
  { intros c K N X. apply in_app_or in X as [X|X]; [exact (label_not_in _ _ Li K X)|exact (each_not_in _ _ _ K N Lps X)]. }
  assert (Npk : forall c, kebab_char c = false -> ~ In c pk) by (intros c; apply label_not_in, Lpk).
  rewrite S in *. clear S. set (s := ns ++ 58 :: pk ++ 47 :: (i ++ each 47 ps) ++ v) in *.
  assert (V : version s = match v with [] => None | _ :: w => Some w end /\ ~ In 58 v).
  { assert (NA : ~ In 64 (ns ++ 58 :: pk ++ 47 :: (i ++ each 47 ps))).
    { intros X. apply in_app_or in X as [X|X]; [exact (NN 64 eq_refl ltac:(lia) X)|].
      destruct X as [X|X]; [discriminate|]. apply in_app_or in X as [X|X]; [exact (Npk 64 eq_refl X)|].
      destruct X as [X|X]; [discriminate|]. exact (Npr 64 eq_refl ltac:(lia) X). }
    assert (Es : s = (ns ++ 58 :: pk ++ 47 :: (i ++ each 47 ps)) ++ v) by (unfold s; repeat (rewrite <- ?app_assoc; cbn [app]); reflexivity).
    unfold version in *. destruct HV as [->|(w & -> & _)].
    - rewrite app_nil_r in Es. rewrite Es. rewrite (proj2 (find_none 64 _) NA). split; [reflexivity|intros []].
    - change (lit "@" ++ w) with (64 :: w) in *. rewrite Es in *. rewrite find_app in * by exact NA. split; [reflexivity|].
      intros [X|X]; [discriminate|]. exact (NV w eq_refl X). }
  destruct V as [V NV'].
  assert (R : rfind 58 s = Some (ns, 58 :: pk ++ 47 :: (i ++ each 47 ps) ++ v)).
  { apply rfind_app. intros X. apply in_app_or in X as [X|X]; [exact (Npk 58 eq_refl X)|]. destruct X as [X|X]; [discriminate|].
    apply in_app_or in X as [X|X]; [exact (Npr 58 eq_refl ltac:(lia) X)|contradiction]. }
  assert (Fs : find 47 s = Some (ns ++ 58 :: pk, 47 :: (i ++ each 47 ps) ++ v)).
  { replace s with ((ns ++ 58 :: pk) ++ 47 :: (i ++ each 47 ps) ++ v) by (unfold s; repeat (rewrite <- ?app_assoc; cbn [app]); reflexivity).
    apply find_app. intros X. apply in_app_or in X as [X|X]; [exact (NN 47 eq_refl ltac:(lia) X)|].
    destruct X as [X|X]; [discriminate|]. exact (Npk 47 eq_refl X). }
  assert (PR : projection s = Some (i ++ each 47 ps)).
  { unfold projection. rewrite Fs.
    assert (At : match find 64 s with Some (b, _) => List.length b | None => List.length s end = (List.length (ns ++ 58%Z :: pk) + 1 + List.length (i ++ each 47%Z ps))%nat).
    { unfold version in V. destruct (find 64 s) as [[b t]|] eqn:E.
      - apply find_some in E as (E1 & E2 & E3). destruct v as [|c w]; [discriminate|]. inversion V as [Tw]. rewrite E2, Tw in E1.
        assert (c = 64) by (destruct HV as [HV|(u & HV & _)]; inversion HV; reflexivity). subst c.
        unfold s in E1. replace (ns ++ 58 :: pk ++ 47 :: (i ++ each 47 ps) ++ 64 :: w) with ((ns ++ 58 :: pk ++ 47 :: (i ++ each 47 ps)) ++ 64 :: w) in E1
          by (repeat (rewrite <- ?app_assoc; cbn [app]); reflexivity).
        apply app_inv_tail in E1. rewrite <- E1. rewrite !app_length. cbn [List.length]. rewrite !app_length. cbn [List.length]. rewrite app_length. lia.
      - destruct v; [|discriminate]. unfold s. rewrite app_nil_r, !app_length. cbn [List.length]. rewrite !app_length. cbn [List.length]. rewrite !app_length. lia. }
    rewrite At. unfold slice.
    assert (Hs : s = (ns ++ 58 :: pk ++ [47]) ++ (i ++ each 47 ps) ++ v) by (unfold s; repeat (rewrite <- ?app_assoc; cbn [app]); reflexivity).
    assert (Hl : List.length (ns ++ 58%Z :: pk ++ [47%Z]) = (List.length (ns ++ 58%Z :: pk) + 1)%nat) by (rewrite !app_length; cbn [List.length]; rewrite app_length; cbn; lia).
    rewrite Hs at 1. rewrite (app_length (ns ++ 58 :: pk ++ [47])), Hl, (app_length (i ++ each 47 ps)).
    destruct (Nat.leb_spec (List.length (ns ++ 58%Z :: pk) + 1) (List.length (ns ++ 58%Z :: pk) + 1 + List.length (i ++ each 47%Z ps))); [|lia].
    destruct (Nat.leb_spec (List.length (ns ++ 58%Z :: pk) + 1 + List.length (i ++ each 47%Z ps)) (List.length (ns ++ 58%Z :: pk) + 1 + (List.length (i ++ each 47%Z ps) + List.length v))); [|lia].
    cbn [andb]. f_equal. rewrite Hs, <- Hl, skipn_app, skipn_all, Nat.sub_diag. cbn [skipn app].
    replace (List.length (ns ++ 58%Z :: pk ++ [47%Z]) + List.length (i ++ each 47%Z ps) - List.length (ns ++ 58%Z :: pk ++ [47%Z]))%nat with (List.length (i ++ each 47%Z ps)) by lia.
    rewrite firstn_app, firstn_all, Nat.sub_diag. cbn [firstn]. apply app_nil_r. }
  exists ns, pk, i, ps. repeat split.
  - unfold namespace. rewrite R. reflexivity.
  - unfold package. rewrite R, Fs. unfold slice.
    assert (List.length (ns ++ 58%Z :: pk) = (List.length ns + 1 + List.length pk)%nat) as Hl by (rewrite app_length; cbn; lia). rewrite Hl.
    assert (Hs : s = (ns ++ [58]) ++ pk ++ 47 :: (i ++ each 47 ps) ++ v) by (unfold s; repeat (rewrite <- ?app_assoc; cbn [app]); reflexivity).
    assert (Hn' : List.length (ns ++ [58%Z]) = (List.length ns + 1)%nat) by (rewrite app_length; reflexivity).
    rewrite Hs, (app_length (ns ++ [58])), (app_length pk), Hn'.
    destruct (Nat.leb_spec (List.length ns + 1) (List.length ns + 1 + List.length pk)); [|lia].
    destruct (Nat.leb_spec (List.length ns + 1 + List.length pk) (List.length ns + 1 + (List.length pk + List.length (47%Z :: (i ++ each 47%Z ps) ++ v)))); [|lia].
    cbn [andb]. f_equal. rewrite <- Hn', skipn_app, skipn_all, Nat.sub_diag. cbn [skipn app].
    replace (List.length (ns ++ [58%Z]) + List.length pk - List.length (ns ++ [58%Z]))%nat with (List.length pk) by lia.
    rewrite firstn_app, firstn_all, Nat.sub_diag. cbn [firstn]. apply app_nil_r.
  - unfold interface. rewrite PR. f_equal. destruct ps as [|x ps].
    + cbn [each]. rewrite app_nil_r. rewrite (proj2 (find_none 47 i)) by (apply label_not_in; auto). reflexivity.
    + cbn [each]. rewrite find_app by (apply label_not_in; auto). reflexivity.
  - exact PR.
  - apply Lpk.
  - apply Lpk.
  - exact Li.
  - exact Lps.
  - destruct (Hn H) as [E _]. destruct (Hpk E) as [-> _]. unfold ns. rewrite app_nil_r. apply L1.
  - destruct (Hn H) as [E _]. destruct (Hpk E) as [-> _]. unfold ns. rewrite app_nil_r. apply L1.
  - destruct (Hn H) as [_ X]. cbn in X. destruct ps; [reflexivity|cbn in X; lia].
  - rewrite V. unfold s. change (lit ":") with [58]. change (lit "/") with [47]. cbn [app].
    destruct HV as [->|(w & -> & _)]; reflexivity.
Qed.
Print Assumptions C49_interface_partial.

(** [a:b/c@:] is accepted as an interface name, and asking for its package
    panics. *)
Theorem C49_package_refuted : exists s, (forall semver nested, new_name semver nested s = Some PInterface) /\ package s = None.
Proof. exists (lit "a:b/c@:"). split; [intros semver []; reflexivity|reflexivity]. Qed.
Print Assumptions C49_package_refuted.

Example C49_case : new_name (fun _ => true) true (lit "a:b:c/d/e@1.2.3") = Some PInterface /\
  namespace (lit "a:b:c/d/e@1.2.3") = Some (lit "a:b") /\ package (lit "a:b:c/d/e@1.2.3") = Some (lit "c") /\
  interface (lit "a:b:c/d/e@1.2.3") = Some (lit "d") /\ projection (lit "a:b:c/d/e@1.2.3") = Some (lit "d/e") /\
  version (lit "a:b:c/d/e@1.2.3") = Some (lit "1.2.3") /\
  new_name (fun _ => true) false (lit "a:b:c/d") = None /\ new_name (fun _ => true) false (lit "[method]a-0.b-1") = Some PMethod /\
  new_name (fun _ => true) false (lit "url=<https://x>,integrity=<sha256-ab==>") = Some PUrl.
Proof. repeat split. Qed.

(** * C25: the order of component names. *)
(** Names that parsing gives. *)
Definition parsed (a : ckind) : Prop := exists semver nested s k, new_name semver nested s = Some k /\ a = kind_of k s.

Definition shape (a : ckind) : Prop :=
  match a with
  | Label s | Constructor s => is_kebab_case s = true
  | Method s | Static s => exists r m, resource s = Some r /\ method s = Some m /\ is_kebab_case r = true /\ is_kebab_case m = true
  | _ => True
  end.
Lemma parsed_shape : forall a, parsed a -> shape a.
Proof.
  intros a (semver & nested & s & k & H & ->). destruct k; try exact Logic.I; apply C49_grammar in H; try reflexivity; cbn [plain_name] in H.
  - apply kebab_label, H.
  - destruct H as (r & -> & L). apply kebab_label in L. exact L.
  - destruct H as (r & m & -> & L1 & L2). exists r, m. destruct (resource_parts r m L1) as [E1 E2]. apply kebab_label in L1, L2. auto.
  - destruct H as (r & m & -> & L1 & L2). exists r, m. destruct (resource_parts r m L1) as [E1 E2]. apply kebab_label in L1, L2. auto.
Qed.

(** Comparing never panics, says equal of a name and itself, and the opposite
    the other way round. *)
Theorem C25_comparison : forall a b, parsed a -> parsed b ->
  exists o, cmp a b = Some o /\ cmp b a = Some (CompOpp o) /\ cmp a a = Some Datatypes.Eq.
Proof.
  intros a b Ha Hb. apply parsed_shape in Ha, Hb.
  assert (K : forall s, lex to_lower s s = Datatypes.Eq) by (intros s; apply lex_eq; reflexivity).
  assert (K' : forall s, lex (fun c => c) s s = Datatypes.Eq) by (intros s; apply lex_eq; reflexivity).
  assert (P : forall x y pl m, (exists r f, resource m = Some r /\ method m = Some f /\ is_kebab_case r = true /\ is_kebab_case f = true) ->
    exists o, plain_vs x y pl m = Some o /\ plain_vs y x pl m = Some (CompOpp o)).
  { intros x y pl m (r & f & E1 & E2 & _). unfold plain_vs. rewrite E1, E2. destruct (kebab_eq pl r && kebab_eq pl f); [exists Datatypes.Eq; auto|].
    unfold by_kind. eexists. split; [reflexivity|]. f_equal. apply Z.compare_antisym. }
  assert (B : forall x y, exists o, by_kind x y = Some o /\ by_kind y x = Some (CompOpp o)).
  { intros x y. unfold by_kind. eexists. split; [reflexivity|]. f_equal. apply Z.compare_antisym. }
  assert (S : cmp a a = Some Datatypes.Eq) by (destruct a; cbn; unfold kebab_cmp, str_cmp; rewrite ?K, ?K'; reflexivity).
  assert (G : exists o, cmp a b = Some o /\ cmp b a = Some (CompOpp o)).
  { destruct a, b; cbn [shape cmp] in *; try (apply B); try (apply P; assumption); eexists; (split; [reflexivity|]); f_equal; apply lex_opp. }
  destruct G as (o & G1 & G2). exists o. auto.
Qed.
Print Assumptions C25_comparison.

(** Names that are equal feed the hasher the same. *)
Theorem C25_hash : forall a b, parsed a -> parsed b -> name_eq a b = true -> exists h, name_hash a = Some h /\ name_hash b = Some h.
Proof.
  intros a b Ha Hb. apply parsed_shape in Ha, Hb. unfold name_eq.
  assert (KH : forall x y, is_kebab_case x = true -> is_kebab_case y = true -> kebab_eq x y = true -> kebab_hash x = kebab_hash y)
    by (intros x y Hx Hy; apply (C24_equality x y Hx Hy)).
  assert (KC : forall x y, is_kebab_case x = true -> is_kebab_case y = true -> kebab_cmp x y = Datatypes.Eq -> kebab_hash x = kebab_hash y).
  { intros x y Hx Hy E. apply KH; auto. destruct (C24_equality x y Hx Hy) as (_ & [_ X] & _). exact (X E). }
  assert (KT : forall p x y, is_kebab_case p = true -> is_kebab_case x = true -> is_kebab_case y = true -> kebab_eq p x && kebab_eq p y = true -> kebab_eq x y = true).
  { intros p x y Hp Hx Hy E. apply andb_true_iff in E as [E1 E2]. 
    destruct (C24_equality p x Hp Hx) as ([X1 _] & _). destruct (C24_equality p y Hp Hy) as ([X2 _] & _). destruct (C24_equality x y Hx Hy) as ([_ X] & _).
    apply X. rewrite <- (X1 E1). exact (X2 E2). }
  assert (SC : forall x y, str_cmp x y = Datatypes.Eq -> x = y) by (intros x y E; apply lex_eq in E; rewrite !map_id in E; exact E).
  destruct a, b; cbn [shape cmp name_hash] in *; unfold by_kind, plain_vs; cbn [pk rank]; try (cbn; discriminate);
  repeat match goal with H : exists r f, _ |- _ => destruct H as (? & ? & ? & ? & ? & ?) end;
  repeat match goal with H : resource _ = Some _ |- _ => rewrite H in * | H : method _ = Some _ |- _ => rewrite H in * end.
  all: try (destruct (kebab_cmp s s0) eqn:E; try discriminate; intros _; eexists; split; [reflexivity|]; rewrite (KC _ _ Ha Hb E); reflexivity).
  all: try (destruct (str_cmp s s0) eqn:E; try discriminate; intros _; apply SC in E; subst s0;
    eexists; split; [reflexivity|];
    repeat match goal with H : ?f ?u = Some _, H' : ?f ?u = Some _ |- _ => rewrite H in H'; inversion H'; subst; clear H' end; reflexivity).
  all: match goal with |- context [kebab_eq ?p ?x && kebab_eq ?p ?y] => destruct (kebab_eq p x && kebab_eq p y) eqn:E; [|unfold by_kind; cbn; discriminate] end;
    intros _; eexists; (split; [reflexivity|]).
  all: match goal with E : kebab_eq ?p ?x && kebab_eq ?p ?y = true |- _ =>
    pose proof (KT p x y ltac:(assumption) ltac:(assumption) ltac:(assumption) E) as T; rewrite T; apply andb_true_iff in E as [E1 _];
    rewrite (KH p x ltac:(assumption) ltac:(assumption) E1); reflexivity end.
Qed.
Print Assumptions C25_hash.

(** Transitivity, for all names but methods and statics named after their
    resource ([[method]l.l]). Missing: those, for which it is refuted below. *)
Definition named_after (a : ckind) : bool :=
  match a with
  | Method s | Static s => match resource s, method s with Some r, Some m => kebab_eq r m | _, _ => true end
  | _ => false
  end.
Theorem C25_order_partial : forall a b c, parsed a -> parsed b -> parsed c ->
  named_after a = false -> named_after b = false -> named_after c = false ->
  forall o1 o2 o3, cmp a b = Some o1 -> cmp b c = Some o2 -> cmp a c = Some o3 ->
  o1 <> Datatypes.Gt -> o2 <> Datatypes.Gt -> o3 <> Datatypes.Gt /\ (o1 = Datatypes.Lt \/ o2 = Datatypes.Lt -> o3 = Datatypes.Lt).
Proof.
  (* without those names, [cmp] is the order of a kind number, then of a string *)
  set (num := fun a => match a with Static _ => 2 | _ => rank (pk a) end).
  set (key := fun a => match a with Label s | Constructor s => map to_lower s | Method s | Static s | Interface s | Dependency s | Url s | Hash s => s end).
  assert (LM : forall x y, lex to_lower x y = lex (fun c => c) (map to_lower x) (map to_lower y)).
  { induction x as [|p x IH]; intros [|q y]; cbn; try reflexivity. rewrite IH. reflexivity. }
  assert (R : forall a b, shape a -> shape b -> named_after a = false -> named_after b = false ->
    cmp a b = Some (match num a ?= num b with Datatypes.Eq => lex (fun c => c) (key a) (key b) | o => o end)).
  { assert (PV : forall x y pl m, is_kebab_case pl = true -> (exists r f, resource m = Some r /\ method m = Some f /\ is_kebab_case r = true /\ is_kebab_case f = true) ->
      named_after (Method m) = false -> plain_vs x y pl m = by_kind x y).
    { intros x y pl m Hp (r & f & E1 & E2 & K1 & K2) NA. unfold plain_vs. cbn [named_after] in NA. rewrite E1, E2 in *.
      destruct (kebab_eq pl r && kebab_eq pl f) eqn:E; [|reflexivity]. exfalso. apply andb_true_iff in E as [X1 X2].
      destruct (C24_equality pl r Hp K1) as ([Y1 _] & _). destruct (C24_equality pl f Hp K2) as ([Y2 _] & _). destruct (C24_equality r f K1 K2) as ([_ Y] & _).
      assert (kebab_eq r f = true) by (apply Y; rewrite <- (Y1 X1); exact (Y2 X2)). congruence. }
    intros a b Ha Hb Na Nb. destruct a, b; cbn [shape] in *; cbn [cmp num rank pk key]; try reflexivity;
    try (rewrite PV by assumption; reflexivity); unfold kebab_cmp; try (rewrite LM; reflexivity). }
  intros a b c Ha Hb Hc Na Nb Nc o1 o2 o3 E1 E2 E3. apply parsed_shape in Ha, Hb, Hc.
  rewrite R in E1, E2, E3 by assumption. inversion E1; subst o1. inversion E2; subst o2. inversion E3; subst o3. clear E1 E2 E3.
  destruct (Z.compare_spec (num a) (num b)) as [X|X|X]; destruct (Z.compare_spec (num b) (num c)) as [Y|Y|Y]; intros N1 N2; try congruence;
  destruct (Z.compare_spec (num a) (num c)) as [W|W|W]; try lia; try (split; [discriminate|reflexivity]).
  apply lex_trans; assumption.
Qed.
Print Assumptions C25_order_partial.

(** With hash sets, adding names one after the other is refused exactly when two
    of them are equal, so it does not depend on the order.  A set is the list of
    its elements; one is found when its hash is the same and it is equal
    (component.rs:4727-4734, [IndexSet::replace]). *)
Definition found (x : ckind) (set : list ckind) : bool :=
  existsb (fun y => (match name_hash x, name_hash y with Some h, Some h' => if list_eq_dec Z.eq_dec h h' then true else false | _, _ => false end) && name_eq x y) set.
Fixpoint add_all (set l : list ckind) : option (list ckind) :=
  match l with
  | [] => Some set
  | x :: l => if found x set then None else add_all (set ++ [x]) l
  end.
Theorem C25_uniqueness : forall l, Forall parsed l ->
  (add_all [] l <> None <-> forall i j a b, nth_error l i = Some a -> nth_error l j = Some b -> i <> j -> name_eq a b = false).
Proof.
  intros l P.
  assert (FE : forall x set, parsed x -> Forall parsed set -> found x set = existsb (name_eq x) set).
  { intros x set Px Ps. unfold found. induction Ps as [|y set Py Ps IH]; [reflexivity|]. cbn [existsb]. rewrite IH. f_equal.
    destruct (name_eq x y) eqn:E; [|apply andb_false_r]. destruct (C25_hash x y Px Py E) as (h & -> & ->).
    destruct (list_eq_dec Z.eq_dec h h); [reflexivity|contradiction]. }
  assert (Sym : forall a b, parsed a -> parsed b -> name_eq a b = name_eq b a).
  { intros a b Ha Hb. destruct (C25_comparison a b Ha Hb) as (o & E1 & E2 & _). unfold name_eq. rewrite E1, E2. destruct o; reflexivity. }
  assert (G : forall l set, Forall parsed l -> Forall parsed set ->
    (add_all set l <> None <-> (forall x y, In x l -> In y set -> name_eq x y = false) /\
      (forall i j a b, nth_error l i = Some a -> nth_error l j = Some b -> i <> j -> name_eq a b = false))).
  { clear l P. induction l as [|x l IH]; intros set P Ps; cbn [add_all].
    - split; [|discriminate]. intros _. split; [intros x y []|]. intros i j a b H. destruct i; discriminate.
    - inversion P as [|? ? Px P']; subst. rewrite FE by assumption. destruct (existsb (name_eq x) set) eqn:E.
      + split; [congruence|]. intros [H _]. apply existsb_exists in E as (y & Hy & E). rewrite (H x y (or_introl eq_refl) Hy) in E. discriminate.
      + rewrite IH by (auto; apply Forall_app; split; auto). split.
        * intros [H1 H2]. split.
          -- intros z y [<-|Hz] Hy; [|apply H1; [exact Hz|apply in_or_app; auto]].
             destruct (name_eq x y) eqn:N; [|reflexivity]. assert (existsb (name_eq x) set = true) by (apply existsb_exists; eauto). congruence.
          -- intros [|i] [|j] a b Ha Hb N; cbn in Ha, Hb; try congruence.
             ++ inversion Ha; subst. apply nth_error_In in Hb. rewrite Forall_forall in P'. rewrite Sym by auto. apply H1; [exact Hb|apply in_or_app; right; left; reflexivity].
             ++ inversion Hb; subst. apply nth_error_In in Ha. apply H1; [exact Ha|apply in_or_app; right; left; reflexivity].
             ++ apply (H2 i j a b Ha Hb). congruence.
        * intros [H1 H2]. split.
          -- intros z y Hz Hy. apply in_app_or in Hy as [Hy|[<-|[]]]; [apply H1; [right; exact Hz|exact Hy]|].
             apply In_nth_error in Hz as [i Hz]. apply (H2 (S i) O z x Hz eq_refl). discriminate.
          -- intros i j a b Ha Hb N. apply (H2 (S i) (S j) a b Ha Hb). congruence. }
  rewrite (G l [] P (Forall_nil _)). split; [intros [_ H]; exact H|intros H; split; [intros x y _ []|exact H]].
Qed.
Print Assumptions C25_uniqueness.

Theorem C25_any_order : forall l l', Forall parsed l -> Permutation l l' -> (add_all [] l <> None <-> add_all [] l' <> None).
Proof.
  assert (H : forall l l', Forall parsed l -> Permutation l l' -> add_all [] l <> None -> add_all [] l' <> None).
  { intros l l' P Pm H. rewrite C25_uniqueness in H by exact P. apply C25_uniqueness; [rewrite Forall_forall in *; intros x Hx; apply P; apply (Permutation_in x (Permutation_sym Pm) Hx)|].
    pose proof (proj1 (Permutation_nth_error_bis l l') Pm) as (f & Inj & B & E). 
    intros i j a b Ha Hb N. rewrite E in Ha, Hb. apply (H (f i) (f j) a b Ha Hb). intros X. apply N, Inj, X. }
  intros l l' P Pm. split; [apply H; auto|]. apply H; [|apply Permutation_sym, Pm].
  rewrite Forall_forall in *; intros x Hx; apply P; apply (Permutation_in x (Permutation_sym Pm) Hx).
Qed.
Print Assumptions C25_any_order.

(** The order is not transitive: [b < z < [method]b.b = b]; equality is not
    either: [a] equals both [[method]a.a] and [[method]a.A], which differ; and
    [PartialOrd] on names looks only at the kind. *)
Definition named (s : string) : option ckind := match new_name (fun _ => true) false (lit s) with Some k => Some (kind_of k (lit s)) | None => None end.
Lemma named_parsed : forall s a, named s = Some a -> parsed a.
Proof. intros s a H. unfold named in H. destruct (new_name _ _ _) eqn:E; [|discriminate]. inversion H. repeat eexists. exact E. Qed.
Theorem C25_order_refuted : exists a b c, parsed a /\ parsed b /\ parsed c /\
  cmp a b = Some Datatypes.Lt /\ cmp b c = Some Datatypes.Lt /\ cmp c a = Some Datatypes.Eq.
Proof.
  exists (Label (lit "b")), (Label (lit "z")), (Method (lit "b.b")).
  split; [apply (named_parsed "b"); reflexivity|]. split; [apply (named_parsed "z"); reflexivity|]. split; [apply (named_parsed "[method]b.b"); reflexivity|].
  repeat split.
Qed.
Print Assumptions C25_order_refuted.
Theorem C25_equality_refuted : exists a b c, parsed a /\ parsed b /\ parsed c /\
  name_eq a b = true /\ name_eq b c = true /\ name_eq a c = false.
Proof.
  exists (Method (lit "a.a")), (Label (lit "a")), (Method (lit "a.A")).
  split; [apply (named_parsed "[method]a.a"); reflexivity|]. split; [apply (named_parsed "a"); reflexivity|]. split; [apply (named_parsed "[method]a.A"); reflexivity|].
  repeat split.
Qed.
Print Assumptions C25_equality_refuted.
Theorem C25_partial_cmp_refuted : exists a b, parsed a /\ parsed b /\ name_partial_cmp a b = Datatypes.Eq /\ cmp a b = Some Datatypes.Lt.
Proof.
  exists (Label (lit "a")), (Label (lit "b")). split; [apply (named_parsed "a"); reflexivity|]. split; [apply (named_parsed "b"); reflexivity|]. split; reflexivity.
Qed.
Print Assumptions C25_partial_cmp_refuted.

(** Without hash sets ([hash-collections] off), the set is a B-tree
    (collections/index_map/detail.rs): up to eleven names it is one node, searched
    from the left until a key is not smaller.  Then the order names come in
    decides whether they are accepted. *)
Fixpoint bt_insert (x : ckind) (keys : list ckind) : option (list ckind) :=
  match keys with
  | [] => Some [x]
  | y :: r => match cmp x y with
              | Some Datatypes.Gt => match bt_insert x r with Some r' => Some (y :: r') | None => None end
              | Some Datatypes.Lt => Some (x :: y :: r)
              | _ => None
              end
  end.
Fixpoint bt_add_all (keys l : list ckind) : option (list ckind) :=
  match l with [] => Some keys | x :: l => match bt_insert x keys with Some k => bt_add_all k l | None => None end end.
Theorem C25_btree_refuted : exists l l', Forall parsed l /\ Permutation l l' /\ bt_add_all [] l <> None /\ bt_add_all [] l' = None.
Proof.
  exists [Label (lit "c"); Method (lit "b.b"); Label (lit "b")], [Label (lit "b"); Method (lit "b.b"); Label (lit "c")].
  split; [|split; [|split; [discriminate|reflexivity]]].
  - constructor; [apply (named_parsed "c"); reflexivity|]. constructor; [apply (named_parsed "[method]b.b"); reflexivity|].
    constructor; [apply (named_parsed "b"); reflexivity|constructor].
  - exact (Permutation_rev [Label (lit "c"); Method (lit "b.b"); Label (lit "b")]).
Qed.
Print Assumptions C25_btree_refuted.

Example C25_case : exists a b c, named "[constructor]a" = Some a /\ named "[method]a.b" = Some b /\ named "[static]a.b" = Some c /\
  named_after b = false /\ name_eq b c = true /\ add_all [] [a; b] <> None /\ add_all [] [a; b; c] = None.
Proof. do 3 eexists. do 3 (split; [reflexivity|]). repeat split; discriminate. Qed.
