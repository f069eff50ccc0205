(** What is read is of the type asked for, and reading ends. *)
From Coq Require Import ZArith Lia List Bool String Arith Sorted Permutation.
From Verif Require Import Base.Prelude Names.Kebab Names.KebabProofs Text.Lexer Text.Numbers Wave.Model Wave.Spec Wave.LexProofs Wave.Proofs.
Import ListNotations.
Open Scope Z_scope.

(** ** A token's text is a part of the source. *)
Lemma take_while_split p s a b : take_while p s = (a, b) -> s = a ++ b.
Proof. revert a b. induction s as [|c s IH]; intros a b; cbn [take_while]; [intros [= <- <-]; reflexivity|]. destruct (p c); [|intros [= <- <-]; reflexivity]. destruct (take_while p s) as (x & y). intros [= <- <-]. cbn [app]. now rewrite (IH x y). Qed.
Lemma lex_digits_split s a b : lex_digits s = Some (a, b) -> s = a ++ b /\ a <> [].
Proof. unfold lex_digits. destruct (take_while dg s) as (x & y) eqn:E. apply take_while_split in E. destruct x; [discriminate|]. intros [= <- <-]. split; [exact E|discriminate]. Qed.
Lemma lex_int_split s a b : lex_int s = Some (a, b) -> s = a ++ b /\ a <> [].
Proof. destruct s as [|c t]; [discriminate|]. cbn [lex_int]. destruct (c =? 48); [intros [= <- <-]; split; [reflexivity|discriminate]|]. apply lex_digits_split. Qed.
Lemma lex_frac_split s a b : lex_frac s = (a, b) -> s = a ++ b.
Proof. destruct s as [|c t]; [intros [= <- <-]; reflexivity|]. cbn [lex_frac]. destruct (c =? 46); [|intros [= <- <-]; reflexivity]. destruct (lex_digits t) as [(x & y)|] eqn:E; intros [= <- <-]; [|reflexivity]. apply lex_digits_split in E as (-> & _). reflexivity. Qed.
Lemma lex_sign_split s a b : lex_sign s = (a, b) -> s = a ++ b.
Proof. destruct s as [|c t]; [intros [= <- <-]; reflexivity|]. cbn [lex_sign]. destruct ((c =? 45) || (c =? 43)); intros [= <- <-]; reflexivity. Qed.
Lemma lex_exp_split s a b : lex_exp s = (a, b) -> s = a ++ b.
Proof.
  destruct s as [|c t]; [intros [= <- <-]; reflexivity|]. cbn [lex_exp]. destruct ((c =? 101) || (c =? 69)); [|intros [= <- <-]; reflexivity]. destruct (lex_sign t) as (g & t') eqn:G. apply lex_sign_split in G. destruct (lex_digits t') as [(x & y)|] eqn:E; intros [= <- <-]; [|reflexivity]. apply lex_digits_split in E as (-> & _). subst t. cbn [app]. now rewrite <- app_assoc.
Qed.
Lemma lex_unsigned_split s a b : lex_unsigned s = Some (a, b) -> s = a ++ b /\ a <> [].
Proof.
  unfold lex_unsigned. destruct (lex_int s) as [(i & r)|] eqn:E; [|discriminate]. apply lex_int_split in E as (-> & N). destruct (lex_frac r) as (f & r') eqn:F. apply lex_frac_split in F. destruct (lex_exp r') as (e & r'') eqn:X. apply lex_exp_split in X. subst. intros [= <- <-]. split; [now rewrite <- !app_assoc|]. destruct i; [contradiction|discriminate].
Qed.
Lemma lex_number_split s a b : lex_number s = Some (a, b) -> s = a ++ b /\ a <> [].
Proof.
  destruct s as [|c t]; [discriminate|]. cbn [lex_number]. destruct (c =? 45) eqn:C; [|apply lex_unsigned_split]. apply Z.eqb_eq in C. subst c. destruct (lex_unsigned t) as [(n & r)|] eqn:U; [apply lex_unsigned_split in U as (-> & _); intros [= <- <-]; split; [reflexivity|discriminate]|].
  intros H. repeat match type of H with match ?x with _ => _ end = _ => destruct x; try discriminate H end. injection H as <- <-. split; [reflexivity|discriminate].
Qed.
Lemma lex_word_split s a b : lex_word s = (a, b) -> s = a ++ b.
Proof. unfold lex_word. destruct (take_while lower_digit s) as (x & y) eqn:E1. destruct (take_while upper_digit s) as (x' & y') eqn:E2. apply take_while_split in E1, E2. destruct (Nat.ltb _ _); intros [= <- <-]; assumption. Qed.
Lemma lex_words_split : forall fuel s a b, lex_words fuel s = (a, b) -> s = a ++ b.
Proof.
  induction fuel as [|fuel IH]; intros s a b; [intros [= <- <-]; reflexivity|]. destruct s as [|c t]; [intros [= <- <-]; reflexivity|]. cbn [lex_words]. destruct (c =? 45); [|intros [= <- <-]; reflexivity].
  destruct (lex_word t) as (w & r) eqn:W. apply lex_word_split in W. destruct w as [|x w]; [intros [= <- <-]; reflexivity|]. destruct (lex_words fuel r) as (ws & r') eqn:E. apply IH in E. intros [= <- <-]. subst. cbn [app]. now rewrite <- app_assoc.
Qed.
Lemma lex_name_split s a b : lex_name s = Some (a, b) -> s = a ++ b /\ a <> [].
Proof.
  destruct s as [|c t]; [discriminate|]. unfold lex_name. intros H.
  assert (exists p x y z, take_while p (c :: t) = (x, y) /\ p c = true /\ lex_words (List.length y) y = (z, b) /\ a = x ++ z) as (p & x & y & z & T & P & W & ->).
  { destruct (lc c) eqn:L.
    - destruct (take_while lower_digit (c :: t)) as (x & y) eqn:T. destruct (lex_words (List.length y) y) as (z & r) eqn:W. injection H as <- <-. exists lower_digit, x, y, z. repeat split; try assumption. unfold lower_digit. now rewrite L.
    - destruct (uc c) eqn:U; [|discriminate]. destruct (take_while upper_digit (c :: t)) as (x & y) eqn:T. destruct (lex_words (List.length y) y) as (z & r) eqn:W. injection H as <- <-. exists upper_digit, x, y, z. repeat split; try assumption. unfold upper_digit. now rewrite U. }
  cbn [take_while] in T. rewrite P in T. destruct (take_while p t) as (x' & y') eqn:T'. injection T as <- <-. apply take_while_split in T'. apply lex_words_split in W. subst. split; [cbn [app]; now rewrite <- app_assoc|discriminate].
Qed.
Lemma lex_label_split s a b : lex_label s = Some (a, b) -> s = a ++ b /\ a <> [].
Proof.
  destruct s as [|c t]; [discriminate|]. cbn [lex_label]. destruct (c =? 37); [|apply lex_name_split]. destruct (lex_name t) as [(x & y)|] eqn:E; [|discriminate]. apply lex_name_split in E as (-> & _). intros [= <- <-]. split; [reflexivity|discriminate].
Qed.
Lemma lex_escape_split s a b : lex_escape s = Some (a, b) -> s = a ++ b /\ a <> [].
Proof.
  destruct s as [|x [|c t]]; try discriminate. cbn [lex_escape]. destruct (negb (x =? 92)); [discriminate|]. destruct (existsb _ _); [intros [= <- <-]; split; [reflexivity|discriminate]|]. destruct (c =? 117); [|discriminate]. destruct t as [|o t]; [discriminate|]. destruct (o =? 123); [|discriminate].
  destruct (take_while is_hex t) as (h & r) eqn:T. apply take_while_split in T. destruct r as [|z r]; [discriminate|]. destruct (_ && _); [|discriminate]. intros [= <- <-]. subst. split; [cbn [app]; now rewrite <- app_assoc|discriminate].
Qed.
Lemma lex_char_split s a b : lex_char s = Some (a, b) -> 39 :: s = a ++ b /\ a <> [].
Proof.
  destruct s as [|c t]; [discriminate|]. cbn [lex_char]. destruct (c =? 92).
  - destruct (lex_escape (c :: t)) as [(e & [|q r])|] eqn:E; try discriminate. apply lex_escape_split in E as (E & _). destruct (q =? 39); [|discriminate]. intros [= <- <-]. rewrite E. split; [cbn [app]; now rewrite <- app_assoc|discriminate].
  - destruct (take_while _ (c :: t)) as (x & [|q r]) eqn:T; try discriminate. apply take_while_split in T. destruct (_ && _); [|discriminate]. intros [= <- <-]. rewrite T. split; [cbn [app]; now rewrite <- app_assoc|discriminate].
Qed.
Lemma lex_string_split : forall fuel s a b, lex_string fuel s = Some (a, b) -> s = a ++ b.
Proof.
  induction fuel as [|fuel IH]; intros s a b; [discriminate|]. destruct s as [|c t]; [discriminate|]. cbn [lex_string]. destruct (c =? 34); [intros [= <- <-]; reflexivity|]. destruct (c =? 92).
  - destruct (lex_escape (c :: t)) as [(e & r)|] eqn:E; [|discriminate]. apply lex_escape_split in E as (-> & _). destruct (lex_string fuel r) as [(x & y)|] eqn:L; [|discriminate]. apply IH in L. intros [= <- <-]. subst. cbn [fst snd]. now rewrite <- app_assoc.
  - destruct (c =? 10); [discriminate|]. destruct (lex_string fuel t) as [(x & y)|] eqn:L; [|discriminate]. apply IH in L. intros [= <- <-]. now subst.
Qed.
Lemma triple_split s t : triple s = Some t -> s = 34 :: 34 :: 34 :: t.
Proof.
  destruct s as [|a [|b [|c s]]]; try discriminate. cbn [triple]. destruct (a =? 34) eqn:A; [|discriminate]. destruct (b =? 34) eqn:B; [|discriminate]. destruct (c =? 34) eqn:C; [|discriminate]. apply Z.eqb_eq in A, B, C. cbn. intros [= <-]. now subst.
Qed.
Lemma find_triple_split : forall s a b, find_triple s = Some (a, b) -> s = a ++ b.
Proof.
  induction s as [|c s IH]; intros a b; [discriminate|]. cbn [find_triple]. destruct (triple (c :: s)) as [t|] eqn:T; [apply triple_split in T; intros [= <- <-]; exact T|]. destruct (find_triple s) as [(x & y)|] eqn:E; [|discriminate]. intros [= <- <-]. cbn [fst snd app]. now rewrite (IH x y).
Qed.
Lemma skip_split : forall s k, exists p, s = p ++ skip k s.
Proof.
  induction s as [s IH] using (well_founded_induction (Wf_nat.well_founded_ltof _ (@List.length Z))). unfold Wf_nat.ltof in IH. intros k. destruct s as [|c t]; [now exists []|]. cbn [skip].
  destruct k; [destruct (IH t ltac:(cbn; lia) (negb (c =? 10))) as (p & E); exists (c :: p); cbn [app]; now rewrite <- E|].
  destruct (is_ws c); [destruct (IH t ltac:(cbn; lia) false) as (p & E); exists (c :: p); cbn [app]; now rewrite <- E|].
  destruct (c =? 47); [|now exists []]. destruct t as [|d t']; [now exists []|]. destruct (d =? 47); [|now exists []]. destruct (IH t' ltac:(cbn; lia) true) as (p & E). exists (c :: d :: p). cbn [app]. now rewrite <- E.
Qed.
Lemma lex_split src t a b : lex src = Tok t a b -> exists p, src = p ++ a ++ b /\ a <> [].
Proof.
  unfold lex. destruct (skip_split src false) as (p & E). destruct (skip false src) as [|c s]; [discriminate|].
  assert (forall k x, as_token k x = Tok t a b -> x = Some (a, b)) as T by (intros k [(x & y)|]; cbn; [intros [= _ <- <-]; reflexivity|discriminate]).
  intros H. exists p. rewrite E.
  enough (c :: s = a ++ b /\ a <> []) as (-> & N) by now split.
  repeat match type of H with (if ?x =? ?y then Tok _ _ _ else _) = _ => destruct (x =? y); [injection H as <- <- <-; split; [reflexivity|discriminate]|] end.
  destruct (dg c || (c =? 45)); [apply T, lex_number_split in H; exact H|].
  destruct (_ || _ || _); [apply T, lex_label_split in H; exact H|].
  destruct (c =? 39) eqn:Q; [apply Z.eqb_eq in Q; subst c; apply T, lex_char_split in H; exact H|].
  destruct (c =? 34) eqn:Q2; [|discriminate].
  destruct (triple (c :: s)) as [r|] eqn:Tr.
  - apply triple_split in Tr. apply T in H. destruct (find_triple r) as [(x & y)|] eqn:F; [|discriminate]. apply find_triple_split in F. injection H as <- <-. rewrite Tr, F. split; [reflexivity|discriminate].
  - apply T in H. destruct (lex_string _ s) as [(x & y)|] eqn:F; [|discriminate]. apply lex_string_split in F. injection H as <- <-. cbn [fst snd app]. rewrite <- F. split; [reflexivity|discriminate].
Qed.
Lemma advance_ok src t a b : advance src = Good (t, a, b) -> (Forall scalar src -> Forall scalar a /\ Forall scalar b) /\ (List.length b < List.length src)%nat.
Proof.
  unfold advance. destruct (lex src) as [| |t' a' b'] eqn:L; try discriminate. intros [= <- <- <-]. apply lex_split in L as (p & E & N). subst src. split.
  - intros F. apply Forall_app in F as (_ & F). now apply Forall_app in F.
  - rewrite !app_length. destruct a'; [contradiction|]. cbn [List.length]. lia.
Qed.
Lemma advance_total src : advance src <> Fuel.
Proof. unfold advance. destruct (lex src); discriminate. Qed.

(** ** What is parsed. *)
Definition slice_of (n : node) : str := match n with Node _ s _ => s end.
Inductive node_ok : node -> Prop :=
| N_ok t s ns : Forall scalar s -> Forall node_ok ns -> (t = NFlags -> NoDup (List.map slice_of ns)) -> node_ok (Node t s ns).
Definition pn_ok (pn : nodep) : Prop := forall src n r, pn src = Good (n, r) -> (Forall scalar src -> node_ok n /\ Forall scalar r) /\ (List.length r < List.length src)%nat.
Definition pn_total (pn : nodep) : Prop := forall src, pn src <> Fuel.
Lemma leaf_ok t s : t <> NFlags -> Forall scalar s -> node_ok (leaf t s).
Proof. intros N F. constructor; [exact F|constructor|contradiction]. Qed.
Lemma bind_good {A B} (x : pres A) (f : A -> pres B) b : bind x f = Good b -> exists a, x = Good a /\ f a = Good b.
Proof. destruct x; cbn; [eauto|discriminate|discriminate]. Qed.
Lemma bind_fuel {A B} (x : pres A) (f : A -> pres B) : bind x f = Fuel -> x = Fuel \/ exists a, x = Good a /\ f a = Fuel.
Proof. destruct x; cbn; [eauto|discriminate|now left]. Qed.
Ltac adv H := let t := fresh "t" in let a := fresh "a" in let r := fresh "r" in let E := fresh "E" in
  apply bind_good in H as (((t & a) & r) & E & H); apply advance_ok in E as (? & ?).
Ltac exp H := let E := fresh "E" in apply bind_good in H as (? & E & H).
Section Parse.
Variable pn : nodep.
Hypothesis PN : pn_ok pn.
Hypothesis PT : pn_total pn.
Lemma comma_loop_ok : forall fuel e src ns r, comma_loop fuel pn e src = Good (ns, r) -> (Forall scalar src -> Forall node_ok ns /\ Forall scalar r) /\ (List.length r < List.length src)%nat.
Proof.
  induction fuel as [|fuel IH]; intros e src ns r H; [discriminate|]. cbn [comma_loop] in H. apply bind_good in H as ((n & r1) & E1 & H). apply PN in E1 as (P1 & L1).
  adv H. destruct (token_eqb t Comma).
  - destruct (next_is e r0).
    + adv H. injection H as <- <-. split; [|lia]. intros F. destruct (P1 F) as (X & Y). destruct (H0 Y) as (_ & Z). destruct (H2 Z) as (_ & W). split; [now constructor|exact W].
    + apply bind_good in H as ((ns' & r') & E & H). apply IH in E as (P2 & L2). injection H as <- <-. split; [|lia]. intros F. destruct (P1 F) as (X & Y). destruct (H0 Y) as (_ & Z). destruct (P2 Z) as (V & W). split; [now constructor|exact W].
  - exp H. injection H as <- <-. split; [|lia]. intros F. destruct (P1 F) as (X & Y). destruct (H0 Y) as (_ & Z). split; [now constructor|exact Z].
Qed.
Lemma comma_loop_total : forall fuel e src, (List.length src < fuel)%nat -> comma_loop fuel pn e src <> Fuel.
Proof.
  induction fuel as [|fuel IH]; intros e src L H; [lia|]. cbn [comma_loop] in H. apply bind_fuel in H as [H|((n & r1) & E1 & H)]; [now apply PT in H|]. apply PN in E1 as (_ & L1).
  apply bind_fuel in H as [H|(((t & a) & r2) & E2 & H)]; [now apply advance_total in H|]. apply advance_ok in E2 as (_ & L2). destruct (token_eqb t Comma).
  - destruct (next_is e r2).
    + apply bind_fuel in H as [H|(((t' & a') & r') & _ & H)]; [now apply advance_total in H|discriminate].
    + apply bind_fuel in H as [H|((ns & r') & _ & H)]; [|discriminate]. eapply IH; [|exact H]. lia.
  - apply bind_fuel in H as [H|(_ & _ & H)]; [|discriminate]. unfold expect in H. destruct (token_eqb t e); discriminate.
Qed.
Lemma commas_ok e src ns r : parse_comma_separated_nodes pn e src = Good (ns, r) -> (Forall scalar src -> Forall node_ok ns /\ Forall scalar r) /\ (List.length r < List.length src)%nat.
Proof.
  unfold parse_comma_separated_nodes. destruct (next_is e src); [|apply comma_loop_ok]. intros H. adv H. injection H as <- <-. split; [|lia]. intros F. destruct (H0 F) as (_ & Z). now split.
Qed.
Lemma commas_total e src : parse_comma_separated_nodes pn e src <> Fuel.
Proof.
  unfold parse_comma_separated_nodes. destruct (next_is e src); [|apply comma_loop_total; lia]. intros H. apply bind_fuel in H as [H|(((t' & a') & r') & _ & H)]; [now apply advance_total in H|discriminate].
Qed.
Lemma expect_total t t' : expect t t' <> Fuel.
Proof. unfold expect. destruct (token_eqb t t'); discriminate. Qed.
Definition second (x : token * str * str) : pres (token * str * str) := let '(t, s, src) := x in if token_eqb t Comma then advance src else Good (t, s, src).
Lemma second_ok t s src t' s' r : (if token_eqb t Comma then advance src else Good (t, s, src)) = Good (t', s', r) -> (Forall scalar s -> Forall scalar src -> Forall scalar s' /\ Forall scalar r) /\ (List.length r <= List.length src)%nat.
Proof. destruct (token_eqb t Comma); [intros H; apply advance_ok in H as (? & ?); split; [intros; auto|lia]|]. intros [= <- <- <-]. split; [auto|lia]. Qed.
Lemma second_total t (s src : str) : (if token_eqb t Comma then advance src else Good (t, s, src)) <> Fuel.
Proof. destruct (token_eqb t Comma); [apply advance_total|discriminate]. Qed.
Lemma finish_record_ok : forall fuel t sl src seen ns r, finish_record fuel pn t sl src seen = Good (ns, r) -> (Forall scalar sl -> Forall scalar src -> Forall node_ok ns /\ Forall scalar r) /\ (List.length r < List.length src)%nat.
Proof.
  induction fuel as [|fuel IH]; intros t sl src seen ns r H; [discriminate|]. cbn [finish_record] in H. exp H. destruct (mem _ seen); [discriminate|]. adv H. exp H. apply bind_good in H as ((n & r1) & E1 & H). apply PN in E1 as (P1 & L1). adv H.
  apply bind_good in H as (((t' & s') & r') & E2 & H). apply second_ok in E2 as (P2 & L2). destruct (token_eqb t' BraceClose).
  - injection H as <- <-. split; [|lia]. intros F1 F2. destruct (H0 F2) as (_ & A). destruct (P1 A) as (B & C). destruct (H2 C) as (D1 & D2). destruct (P2 D1 D2) as (_ & G). split; [|exact G]. constructor; [apply leaf_ok; [discriminate|exact F1]|now constructor].
  - apply bind_good in H as ((ns' & r'') & E3 & H). apply IH in E3 as (P3 & L3). injection H as <- <-. split; [|lia]. intros F1 F2. destruct (H0 F2) as (_ & A). destruct (P1 A) as (B & C). destruct (H2 C) as (D1 & D2). destruct (P2 D1 D2) as (G1 & G2). destruct (P3 G1 G2) as (X & Y). split; [|exact Y]. constructor; [apply leaf_ok; [discriminate|exact F1]|now constructor].
Qed.
Lemma finish_record_total : forall fuel t sl src seen, (List.length src < fuel)%nat -> finish_record fuel pn t sl src seen <> Fuel.
Proof.
  induction fuel as [|fuel IH]; intros t sl src seen L H; [lia|]. cbn [finish_record] in H. apply bind_fuel in H as [H|(_ & _ & H)]; [now apply expect_total in H|]. destruct (mem _ seen); [discriminate|].
  apply bind_fuel in H as [H|(((? & ?) & r1) & E & H)]; [now apply advance_total in H|]. apply advance_ok in E as (_ & L1). apply bind_fuel in H as [H|(_ & _ & H)]; [now apply expect_total in H|]. apply bind_fuel in H as [H|((n & r2) & E & H)]; [now apply PT in H|]. apply PN in E as (_ & L2).
  apply bind_fuel in H as [H|(((? & ?) & r3) & E & H)]; [now apply advance_total in H|]. apply advance_ok in E as (_ & L3). apply bind_fuel in H as [H|(((t' & ?) & r4) & E & H)]; [now apply second_total in H|]. apply second_ok in E as (_ & L4).
  destruct (token_eqb t' BraceClose); [discriminate|]. apply bind_fuel in H as [H|((? & ?) & _ & H)]; [|discriminate]. eapply IH; [|exact H]. lia.
Qed.
Lemma flags_keys k n m : NoDup (List.map fst m) -> ~ In k (List.map fst m) -> NoDup (List.map fst (put k n m)).
Proof. intros N K. apply (Permutation_NoDup (l := k :: List.map fst m)); [|now constructor]. change (k :: List.map fst m) with (List.map fst ((k, n) :: m)). apply Permutation_map, Permutation_sym, put_perm. Qed.
Definition flags_ok (m : list (str * node)) : Prop := Forall (fun p => fst p = trim_percent (slice_of (snd p))) m.
Lemma finish_flags_ok : forall fuel t sl src m ns r, finish_flags fuel t sl src m = Good (ns, r) -> NoDup (List.map fst m) -> flags_ok m ->
  (Forall (fun p => node_ok (snd p)) m -> Forall scalar sl -> Forall scalar src -> Forall node_ok ns /\ Forall scalar r) /\ NoDup (List.map slice_of ns) /\ (List.length r < List.length src)%nat.
Proof.
  induction fuel as [|fuel IH]; intros t sl src m ns r H N K; [discriminate|]. cbn [finish_flags] in H. exp H. destruct (mem _ _) eqn:M; [discriminate|]. adv H.
  apply bind_good in H as (((t' & s') & r') & E2 & H). apply second_ok in E2 as (P2 & L2).
  assert (NoDup (List.map fst (put (trim_percent sl) (leaf NLabel sl) m))) as N' by (apply flags_keys; [exact N|]; intros I; apply mem_in in I; congruence).
  assert (flags_ok (put (trim_percent sl) (leaf NLabel sl) m)) as K' by (unfold flags_ok; rewrite put_perm; constructor; [reflexivity|exact K]).
  assert (Forall (fun p => node_ok (snd p)) m -> Forall scalar sl -> Forall (fun p => node_ok (snd p)) (put (trim_percent sl) (leaf NLabel sl) m)) as Q by (intros X Y; rewrite put_perm; constructor; [now apply leaf_ok|exact X]).
  destruct (token_eqb t' BraceClose).
  - injection H as <- <-. split; [|split; [|lia]].
    + intros F0 F1 F2. destruct (H0 F2) as (A & B). destruct (P2 A B) as (_ & C). split; [|exact C]. rewrite Forall_map. auto.
    + rewrite map_map. apply (NoDup_map_inv trim_percent). rewrite map_map. clear - N' K'. unfold flags_ok in K'. revert N'. generalize (put (trim_percent sl) (leaf NLabel sl) m) K'. intros l Kl. assert (List.map fst l = List.map (fun x => trim_percent (slice_of (snd x))) l) as -> by (clear - Kl; induction Kl; cbn; congruence). auto.
  - apply IH in H as (P3 & L3 & L4); [|exact N'|exact K']. split; [|split; [exact L3|lia]]. intros F0 F1 F2. destruct (H0 F2) as (A & B). destruct (P2 A B) as (C & G). auto.
Qed.
Lemma finish_flags_total : forall fuel t sl src m, (List.length src < fuel)%nat -> finish_flags fuel t sl src m <> Fuel.
Proof.
  induction fuel as [|fuel IH]; intros t sl src m L H; [lia|]. cbn [finish_flags] in H. apply bind_fuel in H as [H|(_ & _ & H)]; [now apply expect_total in H|]. destruct (mem _ _); [discriminate|].
  apply bind_fuel in H as [H|(((? & ?) & r3) & E & H)]; [now apply advance_total in H|]. apply advance_ok in E as (_ & L3). apply bind_fuel in H as [H|(((t' & ?) & r4) & E & H)]; [now apply second_total in H|]. apply second_ok in E as (_ & L4).
  destruct (token_eqb t' BraceClose); [discriminate|]. eapply IH; [|exact H]. lia.
Qed.
Lemma payload_ok src n r : parse_payload pn src = Good (n, r) -> (Forall scalar src -> node_ok n /\ Forall scalar r) /\ (List.length r < List.length src)%nat.
Proof.
  unfold parse_payload. intros H. adv H. exp H. apply bind_good in H as ((n' & r1) & E1 & H). apply PN in E1 as (P1 & L1). adv H. exp H. injection H as <- <-. split; [|lia]. intros F. destruct (H0 F) as (_ & A). destruct (P1 A) as (B & C). destruct (H2 C) as (_ & D). now split.
Qed.
Lemma payload_total src : parse_payload pn src <> Fuel.
Proof.
  unfold parse_payload. intros H. apply bind_fuel in H as [H|(((? & ?) & r1) & _ & H)]; [now apply advance_total in H|]. apply bind_fuel in H as [H|(_ & _ & H)]; [now apply expect_total in H|]. apply bind_fuel in H as [H|((n & r2) & E & H)]; [now apply PT in H|].
  apply bind_fuel in H as [H|(((? & ?) & r3) & _ & H)]; [now apply advance_total in H|]. apply bind_fuel in H as [H|(_ & _ & H)]; [now apply expect_total in H|discriminate].
Qed.
Ltac one t ns := constructor; [constructor|ns|intros; discriminate].
Lemma inner_ok : pn_ok (parse_node_inner pn).
Proof.
  intros src n r H. unfold parse_node_inner in H. adv H.
  assert (forall s', (exists t, t <> NFlags /\ (n, r) = (leaf t s', r0)) -> s' = a -> (Forall scalar src -> node_ok n /\ Forall scalar r) /\ (List.length r < List.length src)%nat) as LF.
  { intros s' (k & Nk & Eq) ->. injection Eq as -> ->. split; [|lia]. intros F. destruct (H0 F) as (A & B). split; [now apply leaf_ok|exact B]. }
  assert (forall k, k <> NFlags -> (do (n, src) <- parse_payload pn r0; Good (Node k [] [n], src)) = Good (n, r) -> (Forall scalar src -> node_ok n /\ Forall scalar r) /\ (List.length r < List.length src)%nat) as PL.
  { intros k Nk X. apply bind_good in X as ((n' & r') & E & X). injection X as <- <-. apply payload_ok in E as (P & L). split; [|lia]. intros F. destruct (H0 F) as (_ & B). destruct (P B) as (C & D). split; [|exact D]. constructor; [constructor|now constructor|intros; contradiction]. }
  assert (forall k, k <> NFlags -> Good (Node k [] [], r0) = Good (n, r) -> (Forall scalar src -> node_ok n /\ Forall scalar r) /\ (List.length r < List.length src)%nat) as NL.
  { intros k Nk [= <- <-]. split; [|lia]. intros F. destruct (H0 F) as (_ & B). split; [|exact B]. constructor; [constructor|constructor|intros; contradiction]. }
  destruct t; try discriminate H; try (injection H as E1 E2; apply (LF a); [|reflexivity]; eexists; split; [|rewrite <- E1, <- E2; reflexivity]; discriminate).
  - (* record or flags *) unfold parse_record_or_flags in H. apply bind_good in H as (((t & sl) & r1) & E & H). apply advance_ok in E as (P1 & L1).
    assert ((do (ns, src) <- finish_record (S (List.length r1)) pn t sl r1 []; Good (Node NRecord [] ns, src)) = Good (n, r) \/ (do (ns, src) <- finish_flags (S (List.length r1)) t sl r1 []; Good (Node NFlags [] ns, src)) = Good (n, r) -> (Forall scalar src -> node_ok n /\ Forall scalar r) /\ (List.length r < List.length src)%nat) as M.
    { intros [X|X]; apply bind_good in X as ((ns & r') & E & X); injection X as <- <-.
      - apply finish_record_ok in E as (P & L). split; [|lia]. intros F. destruct (H0 F) as (_ & A). destruct (P1 A) as (B & C). destruct (P B C) as (D1 & D2). split; [|exact D2]. constructor; [constructor|exact D1|intros; discriminate].
      - apply finish_flags_ok in E as (P & ND & L); [|constructor|constructor]. split; [|lia]. intros F. destruct (H0 F) as (_ & A). destruct (P1 A) as (B & C). destruct (P (Forall_nil _) B C) as (D1 & D2). split; [|exact D2]. constructor; [constructor|exact D1|intros _; exact ND]. }
    destruct t; try (apply M; destruct (next_is Colon r1); [left|right]; exact H).
    + injection H as <- <-. split; [|lia]. intros F. destruct (H0 F) as (_ & A). destruct (P1 A) as (_ & C). split; [|exact C]. constructor; constructor.
    + apply bind_good in H as (((t & sl') & r2) & E & H). apply advance_ok in E as (P2 & L2). exp H. injection H as <- <-. split; [|lia]. intros F. destruct (H0 F) as (_ & A). destruct (P1 A) as (_ & C). destruct (P2 C) as (_ & D). split; [|exact D]. constructor; [constructor|constructor|intros; discriminate].
  - (* tuple *) unfold parse_tuple in H. apply bind_good in H as ((ns & r') & E & H). apply commas_ok in E as (P & L).
    assert (Good (Node NTuple [] ns, r') = Good (n, r)) as X by (destruct ns; [discriminate|exact H]). injection X as <- <-. split; [|lia]. intros F. destruct (H0 F) as (_ & A). destruct (P A) as (B & C). split; [|exact C]. constructor; [constructor|exact B|intros; discriminate].
  - (* list *) unfold parse_list in H. apply bind_good in H as ((ns & r') & E & H). apply commas_ok in E as (P & L). injection H as <- <-. split; [|lia]. intros F. destruct (H0 F) as (_ & A). destruct (P A) as (B & C). split; [|exact C]. constructor; [constructor|exact B|intros; discriminate].
  - (* label *) destruct (decode a) as [k|] eqn:Dk.
    + destruct k; try (injection H as E1 E2; apply (LF a); [|reflexivity]; eexists; split; [|rewrite <- E1, <- E2; reflexivity]; discriminate).
      * apply (PL NOptionSome); [discriminate|exact H].
      * apply (NL NOptionNone); [discriminate|exact H].
      * unfold parse_result in H. destruct (next_is ParenOpen r0); [apply (PL NResultOk)|apply (NL NResultOk)]; (discriminate || exact H).
      * unfold parse_result in H. destruct (next_is ParenOpen r0); [apply (PL NResultErr)|apply (NL NResultErr)]; (discriminate || exact H).
    + unfold parse_label_maybe_payload in H. destruct (next_is ParenOpen r0).
      * apply bind_good in H as ((n' & r') & E & H). injection H as <- <-. apply payload_ok in E as (P & L). split; [|lia]. intros F. destruct (H0 F) as (A & B). destruct (P B) as (C & D). split; [|exact D]. constructor; [constructor| |intros; discriminate]. constructor; [apply leaf_ok; [discriminate|exact A]|now constructor].
      * injection H as E1 E2. apply (LF a); [|reflexivity]. eexists. split; [|rewrite <- E1, <- E2; reflexivity]. discriminate.
Qed.
Lemma inner_total : pn_total (parse_node_inner pn).
Proof.
  intros src H. unfold parse_node_inner in H. apply bind_fuel in H as [H|(((t & a) & r0) & _ & H)]; [now apply advance_total in H|].
  assert (forall (X : Type) (f : node * str -> pres X), (forall x, f x <> Fuel) -> bind (parse_payload pn r0) f <> Fuel) as PL by (intros X f Hf Y; apply bind_fuel in Y as [Y|(x & _ & Y)]; [now apply payload_total in Y|now apply Hf in Y]).
  destruct t; try discriminate H.
  - unfold parse_record_or_flags in H. apply bind_fuel in H as [H|(((t & sl) & r1) & _ & H)]; [now apply advance_total in H|].
    assert ((if next_is Colon r1 then do (ns, src) <- finish_record (S (List.length r1)) pn t sl r1 []; Good (Node NRecord [] ns, src) else do (ns, src) <- finish_flags (S (List.length r1)) t sl r1 []; Good (Node NFlags [] ns, src)) <> Fuel) as M.
    { destruct (next_is Colon r1); intros X; apply bind_fuel in X as [X|((? & ?) & _ & X)]; try discriminate X; [eapply finish_record_total in X|eapply finish_flags_total in X]; (exact X || lia). }
    destruct t; try (now apply M in H); [discriminate|]. apply bind_fuel in H as [H|(((? & ?) & ?) & _ & H)]; [now apply advance_total in H|]. apply bind_fuel in H as [H|(_ & _ & H)]; [now apply expect_total in H|discriminate].
  - unfold parse_tuple in H. apply bind_fuel in H as [H|((ns & ?) & _ & H)]; [now apply commas_total in H|]. destruct ns; discriminate.
  - unfold parse_list in H. apply bind_fuel in H as [H|((ns & ?) & _ & H)]; [now apply commas_total in H|discriminate].
  - destruct (decode a) as [[]|]; try discriminate H; unfold parse_some, parse_result, parse_label_maybe_payload in H; try (destruct (next_is ParenOpen r0); [|discriminate H]); apply PL in H; try exact H; intros (? & ?); discriminate.
Qed.
End Parse.
Lemma parse_ok : forall d, pn_ok (parse_node d) /\ pn_total (parse_node d).
Proof. induction d as [|d (A & B)]; [split; [intros ? ? ? H; discriminate H|intros ? H; discriminate H]|]. split; cbn [parse_node]; [now apply inner_ok|now apply inner_total]. Qed.

(** ** Characters and strings. *)
Lemma from_u32_scalar v c : 0 <= v -> from_u32 v = Some c -> scalar c.
Proof.
  unfold from_u32. intros V. destruct (Z.leb_spec v 0x10ffff) as [L|L]; [|discriminate]. cbn [andb]. destruct (in_range 0xd800 0xdfff v) eqn:R; [discriminate|]. intros [= <-]. apply in_range_false in R. unfold scalar. lia.
Qed.
Lemma unescape_hex_ok : forall s k v c r, 0 <= v -> unescape_hex k v s = Some (c, r) -> scalar c /\ exists p, s = p ++ r /\ p <> [].
Proof.
  induction s as [|x s IH]; intros k v c r V; [discriminate|]. cbn [unescape_hex]. destruct (x =? 125).
  - destruct k as [|k]; [discriminate|]. destruct (from_u32 v) as [u|] eqn:U; [|discriminate]. intros [= <- <-]. split; [now apply from_u32_scalar in U|]. exists [x]. split; [reflexivity|discriminate].
  - destruct (is_hex x) eqn:Hx; [|discriminate]. destruct (6 <=? k)%nat; [discriminate|]. intros H. apply IH in H as (S & p & -> & _).
    + split; [exact S|]. exists (x :: p). split; [reflexivity|discriminate].
    + rewrite Z.lor_nonneg. split; [now apply Z.shiftl_nonneg|]. pose proof (to_hex_range x Hx). lia.
Qed.
Lemma unescape_ok s c r : unescape s = Some (c, r) -> scalar c /\ exists p, s = p ++ r /\ (2 <= List.length p)%nat.
Proof.
  destruct s as [|b [|x t]]; try discriminate. cbn [unescape]. destruct (negb (b =? 92)); [discriminate|].
  repeat match goal with |- (if ?x =? ?y then Some (_, _) else _) = _ -> _ => destruct (x =? y); [intros [= <- <-]; split; [unfold scalar; lia|exists [b; x]; split; [reflexivity|cbn; lia]]|] end.
  destruct (x =? 117); [|discriminate]. destruct t as [|o t]; [discriminate|]. destruct (o =? 123); [|discriminate]. intros H. apply unescape_hex_ok in H as (S & p & -> & _); [|lia]. split; [exact S|]. exists (b :: x :: o :: p). split; [reflexivity|cbn; lia].
Qed.
Lemma string_parts_ok : forall fuel s v, string_parts fuel s = Good v -> Forall scalar s -> Forall scalar v.
Proof.
  induction fuel as [|fuel IH]; intros [|c t] v H F; cbn [string_parts] in H; try discriminate H; try (injection H as <-; constructor).
  destruct (c =? 92).
  - destruct (unescape (c :: t)) as [(x & r)|] eqn:U; [|discriminate]. apply unescape_ok in U as (S & p & E & _). apply bind_good in H as (w & W & H). injection H as <-. constructor; [exact S|]. apply (IH r); [exact W|]. rewrite E in F. now apply Forall_app in F.
  - apply bind_good in H as (w & W & H). injection H as <-. inversion_clear F. constructor; [assumption|]. now apply (IH t).
Qed.
Lemma string_parts_total : forall fuel s, (List.length s <= fuel)%nat -> string_parts fuel s <> Fuel.
Proof.
  induction fuel as [|fuel IH]; intros [|c t] L H; cbn [string_parts] in H; try discriminate H; cbn [List.length] in L; [lia|]. destruct (c =? 92).
  - destruct (unescape (c :: t)) as [(x & r)|] eqn:U; [|discriminate]. apply unescape_ok in U as (S & p & E & Lp). apply bind_fuel in H as [H|(? & _ & H)]; [|discriminate]. apply IH in H; [exact H|]. apply (f_equal (@List.length Z)) in E. rewrite app_length in E. cbn [List.length] in E. lia.
  - apply bind_fuel in H as [H|(? & _ & H)]; [|discriminate]. apply IH in H; [exact H|lia].
Qed.
Lemma removelast_ok (s : str) : Forall scalar s -> Forall scalar (removelast s).
Proof. induction 1 as [|x s X F IH]; [constructor|]. cbn [removelast]. destruct s; [constructor|]. now constructor. Qed.
Lemma skipn_ok n (s : str) : Forall scalar s -> Forall scalar (skipn n s).
Proof. intros F. rewrite <- (firstn_skipn n s) in F. now apply Forall_app in F. Qed.
Lemma inner_scalar n s : Forall scalar s -> Forall scalar (inner n s).
Proof. intros F. unfold inner. apply removelast_ok. generalize (n - 1)%nat. intros k. induction k as [|k IH]; cbn [Nat.iter nat_rect]; [now apply skipn_ok|now apply removelast_ok]. Qed.
Lemma split_lines_ok s : Forall scalar s -> Forall (Forall scalar) (split_lines s).
Proof. induction 1 as [|c s C F IH]; [repeat constructor|]. cbn [split_lines]. destruct (c =? 10); [constructor; [constructor|exact IH]|]. destruct (split_lines s) as [|l ls]; [constructor; [constructor; [exact C|constructor]|constructor]|]. inversion_clear IH. constructor; [now constructor|assumption]. Qed.
Lemma strip_prefix_ok : forall p s r, strip_prefix p s = Some r -> Forall scalar s -> Forall scalar r.
Proof. induction p as [|a p IH]; intros s r; [intros [= <-]; auto|]. destruct s as [|b s]; [discriminate|]. cbn [strip_prefix]. destruct (a =? b); [|discriminate]. intros H F. inversion_clear F. eauto. Qed.
Lemma strip_cr_ok l : Forall scalar l -> Forall scalar (strip_cr l).
Proof. intros F. unfold strip_cr. destruct (rev l) as [|c r] eqn:E; [exact F|]. destruct (c =? 13); [|exact F]. apply Forall_rev. apply Forall_rev in F. rewrite E in F. now inversion F. Qed.
Lemma strip_cr_len l : (List.length (strip_cr l) <= List.length l)%nat.
Proof. unfold strip_cr. destruct (rev l) as [|c r] eqn:E; [lia|]. destruct (c =? 13); [|lia]. apply (f_equal (@List.length Z)) in E. rewrite rev_length in *. cbn [List.length] in E. lia. Qed.
Lemma mapm_good {A B} (f : A -> pres B) (P : A -> Prop) (Q : B -> Prop) : (forall a b, f a = Good b -> P a -> Q b) -> forall l r, mapm f l = Good r -> Forall P l -> Forall Q r.
Proof. intros H. induction l as [|a l IH]; intros r E F; cbn [mapm] in E; [injection E as <-; constructor|]. apply bind_good in E as (b & E1 & E). apply bind_good in E as (bs & E2 & E). injection E as <-. inversion_clear F. constructor; eauto. Qed.
Lemma mapm_total {A B} (f : A -> pres B) l : (forall a, In a l -> f a <> Fuel) -> mapm f l <> Fuel.
Proof.
  induction l as [|a l IH]; intros H E; [discriminate|]. cbn [mapm] in E. apply bind_fuel in E as [E|(b & _ & E)]; [apply H in E; [exact E|now left]|]. apply bind_fuel in E as [E|(bs & _ & E)]; [|discriminate]. apply IH in E; [exact E|]. intros x Hx. apply H. now right.
Qed.
Lemma multiline_ok s v : multiline_parts s = Good v -> Forall scalar s -> Forall scalar v.
Proof.
  unfold multiline_parts. intros H F.
  set (s' := match s with c :: t => if c =? 13 then t else s | [] => s end) in *. assert (Forall scalar s') as F' by (unfold s'; destruct s as [|c t]; [exact F|]; destruct (c =? 13); [now inversion F|exact F]). clearbody s'.
  assert (Forall (Forall scalar) (rev (split_lines s'))) as G by (apply Forall_rev, (split_lines_ok s' F')). destruct (rev (split_lines s')) as [|indent before]; [discriminate|]. inversion_clear G as [|? ? _ Gb]. destruct (existsb _ indent); [discriminate|]. assert (Forall (Forall scalar) (rev before)) as Gb' by now apply Forall_rev.
  destruct (rev before) as [|[|] lines]; try discriminate. apply bind_good in H as (ls & E & H). injection H as <-. inversion_clear Gb' as [|? ? _ Gl].
  assert (Forall (Forall scalar) ls) as L.
  { eapply (mapm_good _ (Forall scalar)); [|exact E|exact Gl]. cbn. intros a b Eb Fa. destruct (strip_prefix indent a) as [l|] eqn:S; [|discriminate]. apply strip_prefix_ok in S; [|exact Fa]. eapply string_parts_ok; [exact Eb|now apply strip_cr_ok]. }
  assert (Forall scalar (flat_map (fun l => 10 :: l) ls)) as X by (clear - L; induction L as [|l ls Hl L IH]; [constructor|]; cbn [flat_map app]; constructor; [unfold scalar; lia|]; apply Forall_app; now split).
  destruct (flat_map (fun l : list Z => 10 :: l) ls); [constructor|]. cbn [tl]. now inversion X.
Qed.
Lemma multiline_total s : multiline_parts s <> Fuel.
Proof.
  unfold multiline_parts. intros H. destruct (rev (split_lines _)) as [|indent before]; [discriminate|]. destruct (existsb _ indent); [discriminate|]. destruct (rev before) as [|[|] lines]; try discriminate. apply bind_fuel in H as [H|(? & _ & H)]; [|discriminate].
  apply mapm_total in H; [exact H|]. intros a _. destruct (strip_prefix indent a); [|discriminate]. apply string_parts_total. apply strip_cr_len.
Qed.

(** ** Numbers. *)
Lemma radix_range lo hi base p : forall s n z, lo <= n <= hi -> radix_loop lo hi base p n s = Some z -> lo <= z <= hi.
Proof.
  induction s as [|c s IH]; intros n z R; cbn [radix_loop]; [intros [= <-]; exact R|]. destruct (_ || _); [discriminate|]. destruct (to_digit base c); [|discriminate].
  destruct (_ || _) eqn:O; [discriminate|]. apply orb_false_iff in O as (A & B). rewrite Z.ltb_ge in A, B. apply IH. lia.
Qed.
Lemma int_range (signed : bool) w s z : width w -> (if signed then i_from w s 10 else u_from w s 10) = Some z -> if signed then in_s w z else in_u w z.
Proof.
  intros W. assert (0 < 2 ^ (w - 1) /\ 0 < 2 ^ w) as (P1 & P2) by (split; apply Z.pow_pos_nonneg; destruct W as [->|[->|[->| ->]]]; lia).
  assert (forall lo hi, lo <= 0 <= hi -> from_str_radix lo hi s 10 = Some z -> lo <= z <= hi) as R.
  { intros lo hi L. unfold from_str_radix. destruct s as [|c t]; [discriminate|]. destruct (_ && _); [discriminate|]. destruct (c =? 43); [now apply radix_range|]. destruct (_ && _); now apply radix_range. }
  destruct signed; unfold i_from, u_from, in_s, in_u; intros H; apply R in H; lia.
Qed.

(** ** Induction over types. *)
Section TyInd.
Variable P : ty -> Prop.
Hypothesis Hb : P TBool.
Hypothesis Hi : forall s w, P (TInt s w).
Hypothesis Hf : forall w, P (TFloat w).
Hypothesis Hc : P TChar.
Hypothesis Hs : P TString.
Hypothesis Hl : forall t, P t -> P (TList t).
Hypothesis Hr : forall fields, Forall (fun f => P (snd f)) fields -> P (TRecord fields).
Hypothesis Ht : forall ts, Forall P ts -> P (TTuple ts).
Hypothesis Hv : forall cases, Forall (fun c => forall t, snd c = Some t -> P t) cases -> P (TVariant cases).
Hypothesis He : forall cases, P (TEnum cases).
Hypothesis Ho : forall t, P t -> P (TOption t).
Hypothesis Hx : forall ok err, (forall t, ok = Some t -> P t) -> (forall t, err = Some t -> P t) -> P (TResult ok err).
Hypothesis Hg : forall names, P (TFlags names).
Fixpoint ty_induct (t : ty) : P t :=
  match t with
  | TBool => Hb | TInt s w => Hi s w | TFloat w => Hf w | TChar => Hc | TString => Hs
  | TList t => Hl t (ty_induct t)
  | TRecord fields => Hr fields ((fix go (l : list (str * ty)) : Forall (fun f => P (snd f)) l :=
      match l with [] => Forall_nil _ | (n, t) :: l => @Forall_cons _ (fun f => P (snd f)) (n, t) l (ty_induct t) (go l) end) fields)
  | TTuple ts => Ht ts ((fix go (l : list ty) : Forall P l := match l with [] => Forall_nil _ | t :: l => @Forall_cons _ P t l (ty_induct t) (go l) end) ts)
  | TVariant cases => Hv cases ((fix go (l : list (str * option ty)) : Forall (fun c => forall t, snd c = Some t -> P t) l :=
      match l with
      | [] => Forall_nil _
      | (n, Some t) :: l => @Forall_cons _ (fun c => forall t, snd c = Some t -> P t) (n, Some t) l
          (fun t' e => match e in _ = o return (match o with Some t' => P t' | None => True end) with eq_refl => ty_induct t end) (go l)
      | (n, None) :: l => @Forall_cons _ (fun c => forall t, snd c = Some t -> P t) (n, None) l
          (fun t' e => match e in _ = o return (match o with Some t' => P t' | None => True end) with eq_refl => Logic.I end) (go l)
      end) cases)
  | TEnum cases => He cases
  | TOption t => Ho t (ty_induct t)
  | TResult ok err => Hx ok err
      (match ok with
       | Some t => fun t' e => match e in _ = o return (match o with Some t' => P t' | None => True end) with eq_refl => ty_induct t end
       | None => fun t' e => match e in _ = o return (match o with Some t' => P t' | None => True end) with eq_refl => Logic.I end
       end)
      (match err with
       | Some t => fun t' e => match e in _ = o return (match o with Some t' => P t' | None => True end) with eq_refl => ty_induct t end
       | None => fun t' e => match e in _ = o return (match o with Some t' => P t' | None => True end) with eq_refl => Logic.I end
       end)
  | TFlags names => Hg names
  end.
End TyInd.

(** ** Values. *)
Section Sound.
Variable parse_float : Z -> str -> option Z.
Hypothesis range : forall w s b, w = 32 \/ w = 64 -> parse_float w s = Some b -> in_u w b.
Notation to_value := (to_wasm_value parse_float).
Lemma position_lt : forall names s i, position s names = Some i -> (i < List.length names)%nat /\ nth i names [] = s.
Proof.
  induction names as [|x names IH]; intros s i; [discriminate|]. cbn [position]. destruct (same x s) eqn:E; [intros [= <-]; apply same_eq in E; split; [cbn; lia|exact E]|]. destruct (position s names) as [j|] eqn:P; [|discriminate]. intros [= <-]. apply IH in P as (A & B). split; [cbn; lia|exact B].
Qed.
Lemma positions names : forall set is, mapm (fun s => match position s names with Some i => Good i | None => Fail WasmValueError end) set = Good is -> Forall (fun i => (i < List.length names)%nat) is /\ List.map (fun i => nth i names []) is = set.
Proof.
  induction set as [|s set IH]; intros is H; cbn [mapm] in H; [injection H as <-; now split|]. apply bind_good in H as (i & E & H). apply bind_good in H as (is' & E' & H). injection H as <-. destruct (position s names) as [j|] eqn:P; [|discriminate]. injection E as ->. apply position_lt in P as (A & B). apply IH in E' as (C & D). split; [now constructor|]. cbn [List.map]. now rewrite B, D.
Qed.
Lemma sorted_strict l : StronglySorted le l -> NoDup l -> StronglySorted lt l.
Proof.
  induction 1 as [|x l S IH F]; intros N; [constructor|]. inversion_clear N as [|? ? Nx N']. constructor; [auto|]. rewrite Forall_forall in F |- *. intros y Hy. specialize (F y Hy). assert (y <> x) by (intros ->; contradiction). lia.
Qed.
Lemma field_node_ok name m n : field name m = Some n -> Forall (fun p => node_ok (snd p)) m -> node_ok n.
Proof. unfold field. destruct (find _ (rev m)) as [p|] eqn:E; [|discriminate]. apply find_some in E as (I & _). apply in_rev in I. intros [= <-] F. rewrite Forall_forall in F. now apply F in I. Qed.
Lemma pairs_ok : forall ns, Forall node_ok ns -> Forall (fun p => node_ok (snd p)) (pairs ns).
Proof.
  fix IH 1. intros [|[t s c] [|n ns]] F; try (constructor; fail). cbn [pairs]. inversion_clear F as [|? ? _ F']. inversion_clear F' as [|? ? X F'']. constructor; [exact X|]. apply IH. exact F''.
Qed.
Lemma variant_sound cases label payload v : forall pre i, i = List.length pre ->
  Forall (fun c => forall t, snd c = Some t -> forall n v, node_ok n -> to_value t n = Good v -> has_type t v) cases ->
  (forall n, payload = Some n -> node_ok n) ->
  (fix go (cases : list (str * option ty)) (i : nat) : pres value :=
         match cases with
         | [] => Fail WasmValueError
         | (x, pt) :: cases =>
             if same x label then
               do p <- maybe_payload (match pt with Some pt => Some (to_value pt) | None => None end) payload;
               Good (VVariant i p)
             else go cases (S i)
         end) cases i = Good v -> has_type (TVariant (pre ++ cases)) v.
Proof.
  induction cases as [|[x pt] cases IH]; intros pre i Hi F P H; [discriminate|]. destruct (same x label).
  - apply bind_good in H as (p & M & H). injection H as <-. apply (H_variant _ _ x pt); [subst i; rewrite nth_error_app2, Nat.sub_diag by lia; reflexivity|].
    inversion_clear F as [|? ? Fx _]. cbn [snd] in Fx. unfold maybe_payload in M. destruct pt as [pt|], payload as [n|]; try discriminate; [|injection M as <-; constructor].
    apply bind_good in M as (w & W & M). injection M as <-. constructor. eapply Fx; eauto.
  - inversion_clear F as [|? ? _ F']. apply (IH (pre ++ [(x, pt)]) (S i)) in H; [|rewrite app_length; cbn; lia|exact F'|exact P]. now rewrite <- app_assoc in H.
Qed.
Lemma payload_sound o payload p : (forall t, o = Some t -> forall n v, node_ok n -> to_value t n = Good v -> has_type t v) -> (forall n, payload = Some n -> node_ok n) ->
  maybe_payload (match o with Some t => Some (to_value t) | None => None end) payload = Good p -> opt_has has_type o p.
Proof.
  intros F P M. unfold maybe_payload in M. destruct o as [t|], payload as [n|]; try discriminate; [|injection M as <-; constructor]. apply bind_good in M as (w & W & M). injection M as <-. constructor. eapply F; eauto.
Qed.
Lemma hd_ok (ns : list node) : Forall node_ok ns -> forall n, hd_error ns = Some n -> node_ok n.
Proof. intros F n. destruct ns; [discriminate|]. intros [= <-]. now inversion F. Qed.
Theorem value_sound : forall t, ty_ok t -> forall n v, node_ok n -> to_value t n = Good v -> has_type t v.
Proof.
  induction t as [|signed w|w| | |t IH|fields IH|ts IH|cases IH|cases|t IH|ok err IHo IHe|names] using ty_induct; intros O n v N H; cbn [to_wasm_value] in H; destruct n as [k s ns]; inversion N as [? ? ? Fs Fn Fl]; subst.
  - destruct k; try discriminate H; injection H as <-; constructor.
  - apply bind_good in H as (z & Z & H). injection H as <-. unfold as_int in Z. destruct k; try discriminate Z. inversion O; subst. constructor.
    destruct signed; [destruct (i_from w s 10) eqn:E|destruct (u_from w s 10) eqn:E]; try discriminate Z; injection Z as <-; [apply (int_range true w s)|apply (int_range false w s)]; assumption.
  - apply bind_good in H as (b & B & H). injection H as <-. unfold as_float in B. destruct k; try discriminate B. inversion O as [| |? W| | | | | | | | | |]; subst. destruct (parse_float w s) as [b'|] eqn:E; [|discriminate]. injection B as ->. apply range in E; [|exact W].
    unfold canonicalize. destruct (is_nan w b) eqn:Nan; constructor; try assumption; rewrite ?canonical_quiet by exact W; try (intros; reflexivity).
    + destruct W as [->| ->]; vm_compute; split; congruence.
    + intros Hb. apply is_nan_iff in Hb; [congruence|exact W|exact E].
  - apply bind_good in H as (c & C & H). injection H as <-. constructor. unfold as_char in C. destruct k; try discriminate C. pose proof (inner_scalar 1 s Fs) as I'. destruct (inner 1 s) as [|x t]; [discriminate|]. destruct (x =? 92).
    + destruct (unescape (x :: t)) as [(u & [|])|] eqn:U; try discriminate C. injection C as <-. now apply unescape_ok in U.
    + destruct t; [|discriminate]. injection C as <-. now inversion I'.
  - apply bind_good in H as (x & X & H). injection H as <-. constructor. unfold as_str in X. destruct k; try discriminate X; [eapply string_parts_ok; [exact X|]|eapply multiline_ok; [exact X|]]; now apply inner_scalar.
  - destruct k; try discriminate H. apply bind_good in H as (vs & V & H). injection H as <-. inversion O; subst. constructor. eapply (mapm_good _ node_ok); [|exact V|exact Fn]. intros a b E Na. eapply IH; eauto.
  - destruct k; try discriminate H. apply bind_good in H as (vs & V & H). injection H as <-. inversion O as [| | | | | |? _ Ot| | | | | |]; subst. constructor. apply pairs_ok in Fn. revert vs V. induction fields as [|[name ft] fields IHf]; intros vs V; [injection V as <-; constructor|].
    apply bind_good in V as (x & X & V). apply bind_good in V as (xs & XS & V). injection V as <-. inversion_clear IH as [|? ? Hx Hxs]. inversion_clear Ot as [|? ? Ox Oxs]. constructor; [|apply IHf; auto; inversion O; subst; constructor; [|assumption]; match goal with M : names_ok _ |- _ => destruct M as (M1 & M2) end; split; [now inversion M1|now inversion M2]].
    cbn [snd] in *. destruct (field name (pairs ns)) as [nd|] eqn:Fd; [eapply Hx; [exact Ox|eapply field_node_ok; eauto|exact X]|]. destruct ft; try discriminate X. injection X as <-. constructor.
  - destruct k; try discriminate H. apply bind_good in H as (vs & V & H). injection H as <-. inversion O as [| | | | | | |? _ Ot| | | | |]; subst. constructor. clear O Fl. revert ns vs V N Fn. induction ts as [|t ts IHt]; intros [|nd ns] vs V N Fn; try discriminate V; [injection V as <-; constructor|].
    apply bind_good in V as (x & X & V). apply bind_good in V as (xs & XS & V). injection V as <-. inversion_clear IH as [|? ? Hx Hxs]. inversion_clear Ot as [|? ? Ox Oxs]. inversion_clear Fn as [|? ? Nx Nxs]. constructor; [eapply Hx; eauto|]. apply (IHt Hxs Oxs ns xs XS); [|exact Nxs]. inversion N; subst. constructor; [assumption|assumption|intros; discriminate].
  - apply bind_good in H as ((label & payload) & A & H). inversion O as [| | | | | | | |? _ Ot| | | |]; subst. apply (variant_sound cases label payload v [] Datatypes.O) in H; [exact H|reflexivity| |].
    + rewrite Forall_forall in IH |- *. intros [x pt] Hin t Et n' v' Nn Tv. cbn [snd] in Et. subst pt. eapply (IH _ Hin t eq_refl); [eapply Ot; exact Hin|exact Nn|exact Tv].
    + intros n' ->. unfold as_variant in A. destruct k; try discriminate A. destruct ns as [|l [|x ns]]; try discriminate A. apply bind_good in A as (? & _ & A). injection A as _ <-. inversion_clear Fn as [|? ? _ F']. now inversion F'.
  - apply bind_good in H as (x & _ & H). destruct (position x cases) as [i|] eqn:P; [|discriminate]. injection H as <-. constructor. now apply position_lt in P.
  - inversion O as [| | | | | | | | | |? Ot| |]; subst. assert (forall n, node_ok n -> (do v <- to_value t n; Good (VOption (Some v))) = Good v -> has_type (TOption t) v) as G by (intros n Nn X; apply bind_good in X as (w & W & X); injection X as <-; constructor; eapply IH; eauto).
    destruct k; try (destruct (flattenable t); [|discriminate H]; exact (G _ N H)); [|injection H as <-; constructor].
    destruct ns as [|p ns]; [destruct (flattenable t); [exact (G _ N H)|discriminate H]|]. apply (G p); [now inversion Fn|exact H].
  - inversion O as [| | | | | | | | | | |? ? Oo Oe|]; subst.
    assert ((match ok with Some t => if flattenable t then do v <- to_value t (Node k s ns); Good (VResult true (Some v)) else Fail InvalidType | None => Fail InvalidType end) = Good v -> has_type (TResult ok err) v) as G.
    { intros X. destruct ok as [t|]; [|discriminate]. destruct (flattenable t); [|discriminate]. apply bind_good in X as (w & W & X). injection X as <-. constructor. constructor. eapply IHo; eauto. }
    destruct k; try exact (G H); apply bind_good in H as (p & M & H); injection H as <-; constructor.
    + eapply payload_sound; [|apply hd_ok; exact Fn|exact M]. intros t Et n' v' Nn Tv. eapply IHo; eauto.
    + eapply payload_sound; [|apply hd_ok; exact Fn|exact M]. intros t Et n' v' Nn Tv. eapply IHe; eauto.
  - destruct k; try discriminate H. unfold make_flags in H. apply bind_good in H as (is & M & H). injection H as <-. apply positions in M as (L & E). specialize (Fl eq_refl).
    constructor; [|now rewrite <- sort_perm]. apply sorted_strict; [apply sort_sorted|]. eapply Permutation_NoDup; [apply sort_perm|]. apply (NoDup_map_inv (fun i => nth i names [])). rewrite E. exact Fl.
Qed.
Theorem value_total : forall t n, to_value t n <> Fuel.
Proof.
  clear range.
  assert (forall A (f : option (node -> pres A)) p, (forall g, f = Some g -> forall n, g n <> Fuel) -> maybe_payload f p <> Fuel) as MP.
  { intros A f p F H. unfold maybe_payload in H. destruct f as [g|], p as [n|]; try discriminate H. apply bind_fuel in H as [H|(? & _ & H)]; [now apply (F g eq_refl) in H|discriminate]. }
  induction t as [|signed w|w| | |t IH|fields IH|ts IH|cases IH|cases|t IH|ok err IHo IHe|names] using ty_induct; intros n H; cbn [to_wasm_value] in H; destruct n as [k s ns].
  - destruct k; discriminate H.
  - apply bind_fuel in H as [H|(? & _ & H)]; [|discriminate]. unfold as_int in H. destruct k; try discriminate H. destruct (if signed then _ else _); discriminate.
  - apply bind_fuel in H as [H|(? & _ & H)]; [|discriminate]. unfold as_float in H. destruct k; try discriminate H. destruct (parse_float w s); discriminate.
  - apply bind_fuel in H as [H|(? & _ & H)]; [|discriminate]. unfold as_char in H. destruct k; try discriminate H. destruct (inner 1 s) as [|c t]; [discriminate|]. destruct (c =? 92); [destruct (unescape (c :: t)) as [(? & [|])|]; discriminate|destruct t; discriminate].
  - apply bind_fuel in H as [H|(? & _ & H)]; [|discriminate]. unfold as_str in H. destruct k; try discriminate H; [apply string_parts_total in H; [exact H|lia]|now apply multiline_total in H].
  - destruct k; try discriminate H. apply bind_fuel in H as [H|(? & _ & H)]; [|discriminate]. apply mapm_total in H; [exact H|]. intros; apply IH.
  - destruct k; try discriminate H. apply bind_fuel in H as [H|(? & _ & H)]; [|discriminate]. generalize dependent (pairs ns). intros m H. induction IH as [|[name ft] fields Hx _ IHf]; [discriminate|]. apply bind_fuel in H as [H|(? & _ & H)].
    + destruct (field name m); [now apply Hx in H|]. destruct ft; discriminate.
    + apply bind_fuel in H as [H|(? & _ & H)]; [auto|discriminate].
  - destruct k; try discriminate H. apply bind_fuel in H as [H|(? & _ & H)]; [|discriminate]. revert ns H. induction IH as [|t ts Hx _ IHf]; intros [|nd ns] H; try discriminate H. apply bind_fuel in H as [H|(? & _ & H)]; [now apply Hx in H|]. apply bind_fuel in H as [H|(? & _ & H)]; [eapply IHf; exact H|discriminate].
  - apply bind_fuel in H as [H|((label & payload) & _ & H)].
    + unfold as_variant, as_label in H. destruct k; try discriminate H. destruct ns as [|[k' s' c'] [|]]; try discriminate H. apply bind_fuel in H as [H|(? & _ & H)]; [destruct k'; discriminate|discriminate].
    + revert H. generalize Datatypes.O. induction IH as [|[x pt] cases Hx _ IHf]; intros i H; [discriminate|]. destruct (same x label); [|now apply IHf in H]. apply bind_fuel in H as [H|(? & _ & H)]; [|discriminate]. apply MP in H; [exact H|]. intros g Hg n. destruct pt as [pt|]; [|discriminate]. injection Hg as <-. now apply Hx.
  - apply bind_fuel in H as [H|(x & _ & H)]; [unfold as_label in H; destruct k; discriminate|]. destruct (position x cases); discriminate.
  - assert (forall n, (do v <- to_value t n; Good (VOption (Some v))) <> Fuel) as G by (intros n X; apply bind_fuel in X as [X|(? & _ & X)]; [now apply IH in X|discriminate]).
    destruct k; try (destruct (flattenable t); [|discriminate H]; exact (G _ H)); [|discriminate]. destruct ns; [destruct (flattenable t); [exact (G _ H)|discriminate H]|exact (G _ H)].
  - assert ((match ok with Some t => if flattenable t then do v <- to_value t (Node k s ns); Good (VResult true (Some v)) else Fail InvalidType | None => Fail InvalidType end) <> Fuel) as G.
    { intros X. destruct ok as [t|]; [|discriminate]. destruct (flattenable t); [|discriminate]. apply bind_fuel in X as [X|(? & _ & X)]; [now apply (IHo t eq_refl) in X|discriminate]. }
    destruct k; try exact (G H); (apply bind_fuel in H as [H|(? & _ & H)]; [|discriminate]; apply MP in H; [exact H|]; intros g Hg n).
    + destruct ok as [t|]; [|discriminate]. injection Hg as <-. now apply IHo.
    + destruct err as [t|]; [|discriminate]. injection Hg as <-. now apply IHe.
  - destruct k; try discriminate H. unfold make_flags in H. apply bind_fuel in H as [H|(? & _ & H)]; [|discriminate]. apply mapm_total in H; [exact H|]. intros a _. destruct (position a names); discriminate.
Qed.
End Sound.
