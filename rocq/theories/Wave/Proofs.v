(** What is written is read back. *)
From Coq Require Import ZArith Lia List Bool String Arith Sorted Permutation.
From Verif Require Import Base.Prelude Names.Kebab Names.KebabProofs Wave.Model Wave.Spec Wave.LexProofs.
Import ListNotations.
Open Scope Z_scope.

Lemma same_refl a : same a a = true.
Proof. unfold same. now destruct (list_eq_dec Z.eq_dec a a). Qed.
Lemma same_neq a b : a <> b -> same a b = false.
Proof. unfold same. now destruct (list_eq_dec Z.eq_dec a b). Qed.
Lemma same_eq a b : same a b = true -> a = b.
Proof. unfold same. now destruct (list_eq_dec Z.eq_dec a b). Qed.
Lemma mem_in s l : mem s l = true <-> In s l.
Proof.
  unfold mem. rewrite existsb_exists. split; [intros (x & H & E); apply same_eq in E; now subst|]. intros H. exists s. split; [exact H|apply same_refl].
Qed.
Lemma mem_out s l : ~ In s l -> mem s l = false.
Proof. intros H. destruct (mem s l) eqn:E; [|reflexivity]. now apply mem_in in E. Qed.
Lemma label_trim s : label s -> trim_percent s = s /\ strip_percent s = s.
Proof.
  intros L. destruct (label_first s L) as (c & t & -> & C). apply letter_range in C. cbn [trim_percent strip_percent]. assert (c =? 37 = false) as -> by (apply Z.eqb_neq; lia). now split.
Qed.
Lemma label_percent s : strip_percent (37 :: s) = s.
Proof. reflexivity. Qed.

(** Lists. *)
Lemma commas_cons x y l : commas (x :: y :: l) = x ++ lit ", " ++ commas (y :: l).
Proof. reflexivity. Qed.
Lemma commas_len l : (List.length l <= S (List.length (commas l)))%nat.
Proof. induction l as [|x [|y l] IH]; [cbn; lia|cbn [List.length]; lia|]. rewrite commas_cons, !app_length. change (List.length (lit ", ")) with 2%nat. cbn [List.length] in *. lia. Qed.
Lemma many_le (f : value -> nat) vs v : In v vs -> (f v <= fold_right (fun v n => Nat.max (f v) n) O vs)%nat.
Proof. induction vs as [|x vs IH]; [intros []|]. cbn [fold_right]. intros [->|H]; [lia|]. specialize (IH H). lia. Qed.
Lemma exists_list {A B} (P : A -> B -> Prop) l : Forall (fun a => exists b, P a b) l -> exists bs, Forall2 P l bs.
Proof. induction 1 as [|a l (b & H) F (bs & IH)]; [now exists []|]. exists (b :: bs). now constructor. Qed.
Lemma F2_map {A B C} (P : C -> B -> Prop) (f : A -> C) l bs : Forall2 (fun a b => P (f a) b) l bs -> Forall2 P (List.map f l) bs.
Proof. induction 1; cbn; constructor; assumption. Qed.
Lemma F2_impl {A B} (P Q : A -> B -> Prop) l bs : (forall a b, P a b -> Q a b) -> Forall2 P l bs -> Forall2 Q l bs.
Proof. intros H. induction 1; constructor; auto. Qed.
Lemma F2_and {A B} (P Q : A -> B -> Prop) l bs : Forall2 (fun a b => P a b /\ Q a b) l bs -> Forall2 P l bs /\ Forall2 Q l bs.
Proof. induction 1 as [|a b l bs (X & Y) F (I1 & I2)]; split; constructor; auto. Qed.

(** Sorting. *)
Lemma insert_perm i l : Permutation (i :: l) (insert_sorted i l).
Proof. induction l as [|x l IH]; [reflexivity|]. cbn [insert_sorted]. destruct (i <=? x)%nat; [reflexivity|]. rewrite perm_swap. now constructor. Qed.
Lemma sort_perm l : Permutation l (sort l).
Proof. induction l as [|x l IH]; [constructor|]. cbn [sort fold_right]. rewrite <- insert_perm. now constructor. Qed.
Lemma insert_sorted_ok i l : StronglySorted le l -> StronglySorted le (insert_sorted i l).
Proof.
  induction 1 as [|x l S IH F]; cbn [insert_sorted]; [constructor; constructor|]. destruct (Nat.leb_spec i x) as [L|L].
  - constructor; [now constructor|]. constructor; [exact L|]. eapply Forall_impl; [|exact F]. intros; lia.
  - constructor; [exact IH|]. rewrite <- insert_perm. constructor; [lia|exact F].
Qed.
Lemma sort_sorted l : StronglySorted le (sort l).
Proof. induction l as [|x l IH]; [constructor|]. cbn [sort fold_right]. now apply insert_sorted_ok. Qed.
Lemma sorted_unique : forall l l', StronglySorted le l -> StronglySorted le l' -> Permutation l l' -> l = l'.
Proof.
  induction l as [|x l IH]; intros l' S S' P; [now apply Permutation_nil in P|]. destruct l' as [|y l']; [apply Permutation_sym, Permutation_nil in P; discriminate|].
  inversion_clear S as [|? ? S1 F1]. inversion_clear S' as [|? ? S2 F2].
  assert (x = y).
  { assert (In x (y :: l')) as [->|Hx] by (eapply Permutation_in; [exact P|now left]); [reflexivity|]. assert (In y (x :: l)) as [->|Hy] by (eapply Permutation_in; [apply Permutation_sym; exact P|now left]); [reflexivity|].
    rewrite Forall_forall in F1, F2. specialize (F1 _ Hy). specialize (F2 _ Hx). lia. }
  subst y. f_equal. apply IH; [assumption|assumption|]. now apply Permutation_cons_inv in P.
Qed.
Lemma sort_back is l : StronglySorted lt is -> Permutation l is -> sort l = is.
Proof.
  intros S P. apply sorted_unique; [apply sort_sorted| |rewrite <- sort_perm; exact P].
  clear P. induction S as [|x s S IH F]; constructor; [exact IH|]. eapply Forall_impl; [|exact F]. cbn. intros; lia.
Qed.
Lemma put_perm k n m : Permutation (put k n m) ((k, n) :: m).
Proof. induction m as [|[k' n'] m IH]; [reflexivity|]. cbn [put]. destruct (str_cmp k k'); try reflexivity; rewrite IH; apply perm_swap. Qed.
Lemma position_nth : forall names i, NoDup names -> (i < List.length names)%nat -> position (nth i names []) names = Some i.
Proof.
  induction names as [|x names IH]; intros i N L; [cbn in L; lia|]. inversion_clear N as [|? ? Nx N']. destruct i as [|i]; cbn [nth position]; [now rewrite same_refl|].
  cbn [List.length] in L. rewrite same_neq; [rewrite IH by (assumption || lia); reflexivity|]. intros ->. apply Nx. apply nth_In. lia.
Qed.
Lemma mapm_position names is : NoDup names -> Forall (fun i => (i < List.length names)%nat) is ->
  mapm (fun s => match position s names with Some i => Good i | None => Fail WasmValueError end) (List.map (fun i => nth i names []) is) = Good is.
Proof. intros N. induction 1 as [|i is L F IH]; [reflexivity|]. cbn [List.map mapm]. rewrite position_nth by assumption. cbn [bind]. now rewrite IH. Qed.

(** Tokens. *)
Lemma lex_punct c t r : In (c, t) [(123, BraceOpen); (125, BraceClose); (40, ParenOpen); (41, ParenClose); (91, BracketOpen); (93, BracketClose); (58, Colon); (44, Comma)] ->
  lex (c :: r) = Tok t [c] r.
Proof. cbn [In]. intros H. decompose [or] H; try contradiction; match goal with E : _ = _ |- _ => injection E as <- <- end; unfold lex; rewrite skip_plain by lia; reflexivity. Qed.
Lemma delim_cons c r : In c [44; 41; 93; 125] -> delim (c :: r).
Proof. intros H. right. eauto. Qed.
Lemma no_paren r : delim r -> next_is ParenOpen r = false.
Proof. intros D. pose proof (lex_delim_ r D) as H. unfold next_is. destruct (lex r); try reflexivity. decompose [or] H; subst; reflexivity. Qed.
Lemma expect_same t : expect t t = Good tt.
Proof. destruct t; reflexivity. Qed.

Definition reads (pn : nodep) (txt : str) (n : node) : Prop := forall r, delim r -> pn (txt ++ r) = Good (n, r).
Lemma node_space d s : parse_node d (32 :: s) = parse_node d s.
Proof. destruct d; reflexivity. Qed.
Lemma node_start d s n r t : parse_node d s = Good (n, r) -> In t [ParenClose; BracketClose; BraceClose; Comma; Colon] -> next_is t s = false.
Proof.
  destruct d as [|d]; [discriminate|]. cbn [parse_node]. unfold parse_node_inner, advance, next_is. destruct (lex s) as [| |t' sl r']; try reflexivity. cbn [bind].
  intros H I. destruct t'; try discriminate H; cbn [In] in I; decompose [or] I; try contradiction; subst t; reflexivity.
Qed.

Lemma is_nan_iff w b : w = 32 \/ w = 64 -> in_u w b -> is_nan w b = true <-> nan_bits w b.
Proof.
  intros W H. unfold is_nan, nan_bits, inf_of, exponent_ones, fraction_bits. rewrite Z.ltb_lt. destruct W as [->| ->].
  - change (32 =? 32) with true. cbv iota. change (32 - 1 - 23) with 8. change (2 ^ 8) with 256. change (2 ^ 23) with 8388608. change (2 ^ (32 - 1)) with 2147483648. Z.to_euclidean_division_equations. lia.
  - change (64 =? 32) with false. cbv iota. change (64 - 1 - 52) with 11. change (2 ^ 11) with 2048. change (2 ^ 52) with 4503599627370496. change (2 ^ (64 - 1)) with 9223372036854775808. Z.to_euclidean_division_equations. lia.
Qed.
Lemma canonical_quiet w : w = 32 \/ w = 64 -> canonical_nan w = quiet_nan w.
Proof. intros [->| ->]; reflexivity. Qed.

Section Loops.
Variable d : nat.
Notation pn := (parse_node d).
Lemma comma_loop_app close ct : In (close, ct) [(41, ParenClose); (93, BracketClose)] -> forall txts ns fuel r, Forall2 (reads pn) txts ns -> txts <> [] -> (List.length txts <= fuel)%nat ->
  comma_loop fuel pn ct (commas txts ++ close :: r) = Good (ns, r).
Proof.
  intros C. assert (In close [44; 41; 93; 125] /\ (forall r, lex (close :: r) = Tok ct [close] r) /\ token_eqb ct Comma = false /\ In ct [ParenClose; BracketClose; BraceClose; Comma; Colon]) as (Cd & Cl & Cc & Ci).
  { cbn [In] in C. decompose [or] C; try contradiction; match goal with E : _ = _ |- _ => injection E as <- <- end; (split; [cbn [In]; tauto|]); (split; [intros; apply lex_punct; cbn [In]; tauto|]); (split; [reflexivity|cbn [In]; tauto]). }
  induction txts as [|x txts IH]; intros ns fuel r F NE L; [contradiction|]. inversion F as [|? n ? ns' Rx F' E1 E2]; subst. destruct fuel as [|fuel]; [cbn in L; lia|]. cbn [comma_loop].
  destruct txts as [|y txts].
  - inversion F'; subst. cbn [commas]. rewrite Rx by now apply delim_cons. cbn [bind]. unfold advance. rewrite Cl. cbn [bind]. rewrite Cc, expect_same. reflexivity.
  - rewrite commas_cons, <- !app_assoc. rewrite Rx by (apply delim_cons; now left). cbn [bind]. unfold advance at 1. change (lit ", ") with [44; 32]. cbn [app]. rewrite (lex_punct 44 Comma) by (cbn [In]; tauto). cbn [bind].
    change (token_eqb Comma Comma) with true. cbv iota.
    assert (next_is ct (32 :: commas (y :: txts) ++ close :: r) = false) as ->.
    { unfold next_is. rewrite lex_space. fold (next_is ct (commas (y :: txts) ++ close :: r)). inversion F' as [|? n' ? ? Ry _]; subst.
      assert (exists r', pn (commas (y :: txts) ++ close :: r) = Good (n', r')) as (r' & P).
      { destruct txts as [|z txts]; [exists (close :: r); cbn [commas]; apply Ry; now apply delim_cons|]. rewrite commas_cons, <- !app_assoc. eexists. apply Ry. apply delim_cons. now left. }
      apply (node_start _ _ _ _ _ P Ci). }
    assert (comma_loop fuel pn ct (32 :: commas (y :: txts) ++ close :: r) = comma_loop fuel pn ct (commas (y :: txts) ++ close :: r)) as ->.
    { destruct fuel; [reflexivity|]. cbn [comma_loop]. now rewrite node_space. }
    rewrite (IH ns' fuel r F') by (discriminate || (cbn [List.length] in *; lia)). reflexivity.
Qed.
Lemma comma_app close ct txts ns r : In (close, ct) [(41, ParenClose); (93, BracketClose)] -> Forall2 (reads pn) txts ns ->
  parse_comma_separated_nodes pn ct (commas txts ++ close :: r) = Good (ns, r).
Proof.
  intros C F. unfold parse_comma_separated_nodes. destruct txts as [|x txts].
  - inversion F; subst. cbn [commas app]. unfold next_is, advance. cbn [In] in C. decompose [or] C; try contradiction; match goal with E : _ = _ |- _ => injection E as <- <- end; rewrite (lex_punct _ _ r) by (cbn [In]; tauto); reflexivity.
  - assert (next_is ct (commas (x :: txts) ++ close :: r) = false) as ->.
    { inversion F as [|? n' ? ? Rx _]; subst. assert (exists r', pn (commas (x :: txts) ++ close :: r) = Good (n', r')) as (r' & P).
      { destruct txts as [|z txts]; [exists (close :: r); cbn [commas]; apply Rx; apply delim_cons; cbn [In] in *; decompose [or] C; try contradiction; match goal with E : _ = _ |- _ => injection E as <- <- end; tauto|]. rewrite commas_cons, <- !app_assoc. eexists. apply Rx. apply delim_cons. now left. }
      apply (node_start _ _ _ _ _ P). cbn [In] in *. decompose [or] C; try contradiction; match goal with E : _ = _ |- _ => injection E as <- <- end; tauto. }
    apply (comma_loop_app close ct C); [exact F|discriminate|]. pose proof (commas_len (x :: txts)). rewrite app_length. lia.
Qed.
(** Fields. *)
Definition field_text (p : str * str) : str := fst p ++ lit ": " ++ snd p.
Fixpoint field_nodes (items : list (str * str)) (ns : list node) : list node :=
  match items, ns with p :: items, n :: ns => leaf NLabel (fst p) :: n :: field_nodes items ns | _, _ => [] end.
Lemma record_loop : forall items p n ns fuel r seen, Forall label (List.map fst (p :: items)) -> NoDup (List.map fst (p :: items)) ->
  (forall s, In s seen -> ~ In s (List.map fst (p :: items))) ->
  reads pn (snd p) n -> Forall2 (fun q n => reads pn (snd q) n) items ns -> (List.length items < fuel)%nat ->
  finish_record fuel pn LabelOrKeyword (fst p) (lit ": " ++ snd p ++ (match items with [] => [] | _ => lit ", " ++ commas (List.map field_text items) end) ++ 125 :: r) seen
  = Good (field_nodes (p :: items) (n :: ns), r).
Proof.
  induction items as [|q items IH]; intros p n ns fuel r seen Lb ND Sn Rp F L; (destruct fuel as [|fuel]; [cbn in L; lia|]); cbn [finish_record]; rewrite expect_same; cbn [bind];
    cbn [List.map] in Lb, ND, Sn; (assert (label (fst p)) as Lp by now inversion Lb); destruct (label_trim _ Lp) as (-> & _); rewrite (mem_out (fst p) seen) by (intros H; apply (Sn _ H); now left);
    change (lit ": ") with [58; 32]; cbn [app]; unfold advance at 1; rewrite (lex_punct 58 Colon) by (cbn [In]; tauto); cbn [bind]; change (expect Colon Colon) with (Good tt); cbn [bind]; rewrite node_space.
  - rewrite Rp by (apply delim_cons; cbn [In]; tauto). cbn [bind]. unfold advance at 1. rewrite (lex_punct 125 BraceClose) by (cbn [In]; tauto). cbn [bind]. change (token_eqb BraceClose Comma) with false. cbv iota. cbn [bind]. change (token_eqb BraceClose BraceClose) with true. cbv iota. inversion F; subst. reflexivity.
  - rewrite <- app_assoc, Rp by (apply delim_cons; now left). cbn [bind]. unfold advance at 1. change (lit ", ") with [44; 32]. cbn [app]. rewrite (lex_punct 44 Comma) by (cbn [In]; tauto). cbn [bind]. change (token_eqb Comma Comma) with true. cbv iota.
    inversion F as [|? nq ? ns' Rq F' E1 E2]; subst. inversion ND as [|? ? Np ND']; subst. inversion Lb as [|? ? _ Lb']; subst.
    assert (commas (List.map field_text (q :: items)) ++ 125 :: r = fst q ++ lit ": " ++ snd q ++ (match items with [] => [] | _ => lit ", " ++ commas (List.map field_text items) end) ++ 125 :: r) as ->.
    { cbn [List.map]. destruct items as [|q' items]; [cbn [commas List.map]; unfold field_text; now rewrite <- !app_assoc|]. cbn [List.map]. rewrite commas_cons. unfold field_text at 1. now rewrite <- !app_assoc. }
    unfold advance at 1. rewrite lex_space, lex_label_app; [|cbn [List.map] in Lb'; now inversion Lb'|repeat split; (reflexivity || discriminate)]. cbn [bind]. change (token_eqb LabelOrKeyword BraceClose) with false. cbv iota.
    rewrite (IH q nq ns' fuel r); [reflexivity|exact Lb'|exact ND'| |exact Rq|exact F'|cbn [List.length] in L; lia].
    intros s [<-|H]; [exact Np|]. intros H'. apply (Sn _ H). right. exact H'.
Qed.
Lemma record_app items ns r : items <> [] -> Forall label (List.map fst items) -> NoDup (List.map fst items) -> Forall2 (fun q n => reads pn (snd q) n) items ns ->
  parse_record_or_flags pn (commas (List.map field_text items) ++ 125 :: r) = Good (Node NRecord [] (field_nodes items ns), r).
Proof.
  intros NE Lb ND F. destruct items as [|p items]; [contradiction|]. inversion F as [|? n ? ns' Rp F' E1 E2]; subst.
  assert (commas (List.map field_text (p :: items)) ++ 125 :: r = fst p ++ lit ": " ++ snd p ++ (match items with [] => [] | _ => lit ", " ++ commas (List.map field_text items) end) ++ 125 :: r) as E.
  { cbn [List.map]. destruct items as [|q' items]; [cbn [commas List.map]; unfold field_text; now rewrite <- !app_assoc|]. cbn [List.map]. rewrite commas_cons. unfold field_text at 1. now rewrite <- !app_assoc. }
  unfold parse_record_or_flags, advance at 1. rewrite E, lex_label_app; [|cbn [List.map] in Lb; now inversion Lb|repeat split; (reflexivity || discriminate)]. cbn [bind].
  assert (forall x, next_is Colon (lit ": " ++ x) = true) as -> by reflexivity.
  rewrite (record_loop items p n ns' _ r []); try assumption; [reflexivity|now intros s []|].
  pose proof (commas_len (List.map field_text items)) as H. rewrite map_length in H. rewrite !app_length. destruct items; [cbn; lia|]. rewrite app_length. cbn [List.length] in *. lia.
Qed.
(** Flags. *)
Definition put_all (names : list str) (m : list (str * node)) : list (str * node) := fold_left (fun m s => put s (leaf NLabel s) m) names m.
Lemma put_all_perm : forall names m, Permutation (put_all names m) (List.map (fun s => (s, leaf NLabel s)) names ++ m).
Proof. induction names as [|s names IH]; intros m; [reflexivity|]. cbn [put_all fold_left]. unfold put_all in IH. rewrite IH, put_perm. cbn [List.map app]. symmetry. apply Permutation_middle. Qed.
Lemma flags_loop : forall names s fuel r m, Forall label (s :: names) -> NoDup (s :: names) -> (forall x, In x (List.map fst m) -> ~ In x (s :: names)) -> (List.length names < fuel)%nat ->
  finish_flags fuel LabelOrKeyword s ((match names with [] => [] | _ => lit ", " ++ commas names end) ++ 125 :: r) m = Good (List.map snd (put_all (s :: names) m), r).
Proof.
  induction names as [|x names IH]; intros s fuel r m Lb ND Sn L; (destruct fuel as [|fuel]; [cbn in L; lia|]); cbn [finish_flags]; rewrite expect_same; cbn [bind];
    (assert (label s) as Lp by now inversion Lb); destruct (label_trim _ Lp) as (-> & _); rewrite (mem_out s (List.map fst m)) by (intros H; apply (Sn _ H); now left).
  - cbn [app]. unfold advance at 1. rewrite (lex_punct 125 BraceClose) by (cbn [In]; tauto). cbn [bind]. change (token_eqb BraceClose Comma) with false. cbv iota. cbn [bind]. reflexivity.
  - rewrite <- app_assoc. change (lit ", ") with [44; 32]. cbn [app]. unfold advance at 1. rewrite (lex_punct 44 Comma) by (cbn [In]; tauto). cbn [bind]. change (token_eqb Comma Comma) with true. cbv iota.
    assert (commas (x :: names) ++ 125 :: r = x ++ (match names with [] => [] | _ => lit ", " ++ commas names end) ++ 125 :: r) as -> by (destruct names; [reflexivity|rewrite commas_cons, <- !app_assoc; reflexivity]).
    inversion Lb as [|? ? _ Lb']; subst. inversion ND as [|? ? Np ND']; subst.
    unfold advance at 1. rewrite lex_space, lex_label_app; [|now inversion Lb'|destruct names; repeat split; (reflexivity || discriminate)]. cbn [bind]. change (token_eqb LabelOrKeyword BraceClose) with false. cbv iota.
    rewrite IH; [reflexivity|exact Lb'|exact ND'| |cbn [List.length] in L; lia].
    intros y Hy. assert (In y (List.map fst ((s, leaf NLabel s) :: m))) as [<-|H] by (eapply Permutation_in; [apply Permutation_map, put_perm|exact Hy]); [exact Np|]. intros H'. apply (Sn _ H). now right.
Qed.
Lemma flags_app names r : Forall label names -> NoDup names ->
  parse_record_or_flags pn (commas names ++ 125 :: r) = Good (Node NFlags [] (List.map snd (put_all names [])), r).
Proof.
  intros Lb ND. destruct names as [|s names].
  - cbn [commas app]. unfold parse_record_or_flags, advance. rewrite (lex_punct 125 BraceClose) by (cbn [In]; tauto). reflexivity.
  - assert (commas (s :: names) ++ 125 :: r = s ++ (match names with [] => [] | _ => lit ", " ++ commas names end) ++ 125 :: r) as E by (destruct names; [reflexivity|rewrite commas_cons, <- !app_assoc; reflexivity]).
    unfold parse_record_or_flags, advance at 1. rewrite E, lex_label_app; [|now inversion Lb|destruct names; repeat split; (reflexivity || discriminate)]. cbn [bind].
    assert (next_is Colon ((match names with [] => [] | _ => lit ", " ++ commas names end) ++ 125 :: r) = false) as ->.
    { destruct names; unfold next_is; [cbn [app]; rewrite (lex_punct 125 BraceClose) by (cbn [In]; tauto); reflexivity|]. rewrite <- app_assoc. change (lit ", ") with [44; 32]. cbn [app]. rewrite (lex_punct 44 Comma) by (cbn [In]; tauto). reflexivity. }
    rewrite flags_loop; [reflexivity|exact Lb|exact ND|now intros x []|].
    pose proof (commas_len names) as H. rewrite app_length. destruct names; [cbn; lia|]. rewrite app_length. cbn [List.length] in *. lia.
Qed.
(** Payloads. *)
Lemma payload_app txt n r : reads pn txt n -> next_is ParenOpen (40 :: txt ++ 41 :: r) = true /\ parse_payload pn (40 :: txt ++ 41 :: r) = Good (n, r).
Proof.
  intros R. unfold next_is, parse_payload, advance. rewrite (lex_punct 40 ParenOpen) by (cbn [In]; tauto). split; [reflexivity|]. cbn [bind]. change (expect ParenOpen ParenOpen) with (Good tt). cbn [bind].
  rewrite R by (apply delim_cons; cbn [In]; tauto). cbn [bind]. rewrite (lex_punct 41 ParenClose) by (cbn [In]; tauto). reflexivity.
Qed.
End Loops.
Lemma lex_kw (s : string) r : (label (lit s)) -> stop r -> lex (lit s ++ r) = Tok LabelOrKeyword (lit s) r.
Proof. apply lex_label_app. Qed.
Lemma kw_label s : In s ["true"; "false"; "some"; "none"; "ok"; "err"; "inf"; "nan"]%string -> label (lit s).
Proof.
  cbn [In]. intros H. apply kebab_label. decompose [or] H; try contradiction; subst s; reflexivity.
Qed.
Lemma label_text_lex name r : label name -> stop r -> lex (label_text name ++ r) = Tok LabelOrKeyword (label_text name) r /\ decode (label_text name) = None /\ strip_percent (label_text name) = name.
Proof.
  intros L R. unfold label_text. destruct (decode name) eqn:D.
  - split; [now apply lex_percent_app|]. split; [|reflexivity]. unfold decode.
    repeat (rewrite same_neq by (intros H; apply (f_equal (@hd Z 0)) in H; discriminate H)). reflexivity.
  - split; [now apply lex_label_app|]. split; [exact D|]. now apply label_trim.
Qed.

(** What the pairs of a record say of a name. *)
Lemma pairs_nodes : forall items ns, Forall label (List.map fst items) -> List.length items = List.length ns ->
  pairs (field_nodes items ns) = combine (List.map fst items) ns.
Proof.
  induction items as [|p items IH]; intros [|n ns] Lb L; try discriminate; [reflexivity|]. cbn [List.map field_nodes pairs combine leaf]. cbn [List.map] in Lb. inversion Lb as [|? ? Lp Lb']; subst. destruct (label_trim _ Lp) as (_ & ->). now rewrite IH by (assumption || now injection L).
Qed.
Lemma find_first {A} (P : str -> Prop) name (n : A) m : NoDup (List.map fst m) -> In (name, n) m -> find (fun p => same name (fst p)) m = Some (name, n).
Proof.
  induction m as [|[k x] m IH]; [intros _ []|]. cbn [List.map fst find]. intros N. inversion_clear N as [|? ? Nk N']. intros [E|H]; [injection E as -> ->; now rewrite same_refl|].
  rewrite same_neq; [now apply IH|]. intros ->. apply Nk. now apply (in_map fst) in H.
Qed.
Lemma field_in name n m : NoDup (List.map fst m) -> In (name, n) m -> field name m = Some n.
Proof.
  intros N H. unfold field. rewrite (find_first (fun _ => True) name n); [reflexivity| |now apply in_rev in H]. rewrite map_rev. now apply NoDup_rev.
Qed.
Lemma field_out name m : ~ In name (List.map fst m) -> field name m = None.
Proof.
  intros H. unfold field. destruct (find _ (rev m)) as [p|] eqn:E; [|reflexivity]. apply find_some in E as (I & S). apply same_eq in S. subst. elim H. apply in_rev in I. now apply in_map.
Qed.

Section Main.
Variable grapheme_extended printable : Z -> bool.
Variable fmt_float : Z -> Z -> str.
Variable parse_float : Z -> str -> option Z.
Hypothesis contract : float_contract fmt_float parse_float.
Notation write_value := (write_value grapheme_extended printable fmt_float).
Notation to_value := (to_wasm_value parse_float).

(** The fields which are written. *)
Fixpoint kept (fields : list (str * ty)) (vs : list value) : list (str * (ty * value)) :=
  match fields, vs with
  | (name, t) :: fields, v :: vs =>
      match t, v with TOption _, VOption None => kept fields vs | _, _ => (name, (t, v)) :: kept fields vs end
  | _, _ => []
  end.
Definition item (p : str * (ty * value)) : str * str := (fst p, write_value (fst (snd p)) (snd (snd p))).
Lemma kept_step name t v fields vs : kept ((name, t) :: fields) (v :: vs) = kept fields vs /\ (exists t', t = TOption t') /\ v = VOption None \/
  kept ((name, t) :: fields) (v :: vs) = (name, (t, v)) :: kept fields vs /\ ((exists t', t = TOption t') -> v <> VOption None).
Proof.
  destruct t; try (right; split; [reflexivity|intros (? & ?); discriminate]). destruct v; try (right; split; [reflexivity|discriminate]). match goal with o : option value |- _ => destruct o end; [right; split; [reflexivity|discriminate]|]. left. split; [reflexivity|]. split; [eauto|reflexivity].
Qed.
Lemma write_record fields vs : write_value (TRecord fields) (VRecord vs) =
  123 :: (match kept fields vs with [] => lit ":" | _ => commas (List.map field_text (List.map item (kept fields vs))) end) ++ [125].
Proof.
  cbn [Model.write_value].
  match goal with |- 123 :: (match ?g vs fields with [] => _ | _ => _ end) ++ _ = _ => assert (forall vs fields, g vs fields = List.map field_text (List.map item (kept fields vs))) as ->; [|now destruct (kept fields vs)] end.
  clear. induction vs as [|v vs IH]; intros [|[name t] fields]; try reflexivity.
  destruct t; try (cbn [kept List.map]; now rewrite <- IH). destruct v; try (cbn [kept List.map]; now rewrite <- IH). match goal with o : option value |- _ => destruct o end; cbn [kept List.map]; now rewrite <- IH.
Qed.
Lemma write_tuple ts vs : write_value (TTuple ts) (VTuple vs) = 40 :: commas (List.map (fun p => write_value (fst p) (snd p)) (combine ts vs)) ++ [41].
Proof.
  cbn [Model.write_value]. do 3 f_equal. revert ts. induction vs as [|v vs IH]; intros [|t ts]; try reflexivity. cbn [combine List.map fst snd]. now rewrite <- IH.
Qed.
Lemma kept_names fields vs : forall x, In x (List.map fst (kept fields vs)) -> In x (List.map fst fields).
Proof.
  revert vs. induction fields as [|[name t] fields IH]; intros [|v vs] x; try (intros []; fail). destruct (kept_step name t v fields vs) as [(-> & _)|(-> & _)]; [right; eauto|]. intros [<-|H]; [now left|right; eauto].
Qed.
Lemma kept_nodup fields vs : NoDup (List.map fst fields) -> NoDup (List.map fst (kept fields vs)).
Proof.
  revert vs. induction fields as [|[name t] fields IH]; intros [|v vs] N; try (constructor; fail). cbn [List.map] in N. inversion_clear N as [|? ? Nn N'].
  destruct (kept_step name t v fields vs) as [(-> & _)|(-> & _)]; [auto|]. cbn [List.map fst]. constructor; [|auto]. intros H. now apply kept_names in H.
Qed.
Lemma kept_in fields vs p : In p (kept fields vs) -> Forall2 (fun f v => has_type (snd f) v) fields vs -> Forall (fun f => ty_ok (snd f)) fields -> has_type (fst (snd p)) (snd (snd p)) /\ ty_ok (fst (snd p)) /\ In (snd (snd p)) vs.
Proof.
  revert vs. induction fields as [|[name t] fields IH]; intros [|v vs] H F O; try (inversion H; fail). inversion F as [|? ? ? ? Ft F']; subst. inversion O as [|? ? Ot O']; subst.
  assert (In p (kept fields vs) -> has_type (fst (snd p)) (snd (snd p)) /\ ty_ok (fst (snd p)) /\ In (snd (snd p)) (v :: vs)) as R by (intros H'; destruct (IH _ H' F' O') as (X & Y & Z); repeat split; [exact X|exact Y|now right]).
  destruct (kept_step name t v fields vs) as [(E & _)|(E & _)]; rewrite E in H; [auto|]. destruct H as [<-|H]; [|auto]. repeat split; [exact Ft|exact Ot|now left].
Qed.
(** Every field is found again. *)
Lemma read_fields m : forall fields vs, NoDup (List.map fst fields) -> Forall2 (fun f v => has_type (snd f) v) fields vs ->
  (forall p, In p (kept fields vs) -> exists n, field (fst p) m = Some n /\ to_value (fst (snd p)) n = Good (snd (snd p))) ->
  (forall name, In name (List.map fst fields) -> ~ In name (List.map fst (kept fields vs)) -> field name m = None) ->
  (fix go (fields : list (str * ty)) : pres (list value) :=
             match fields with
             | [] => Good []
             | (name, ft) :: fields =>
                 do v <- (match field name m with
                          | Some n => to_value ft n
                          | None => match ft with TOption _ => Good (VOption None) | _ => Fail WasmValueError end
                          end);
                 do vs <- go fields; Good (v :: vs)
             end) fields = Good vs.
Proof.
  induction fields as [|[name t] fields IH]; intros [|v vs] N F K O; inversion F as [|? ? ? ? Ft F']; subst; [reflexivity|].
  cbn [List.map fst] in N. inversion_clear N as [|? ? Nn N'].
  assert (~ In name (List.map fst (kept fields vs))) as Nk by (intros H; now apply kept_names in H).
  destruct (kept_step name t v fields vs) as [(E & (t' & ->) & ->)|(E & _)]; rewrite E in K, O.
  - rewrite (O name) by (assumption || now left). cbn [bind]. rewrite (IH vs N' F' K); [reflexivity|]. intros x Hx. apply O. now right.
  - destruct (K (name, (t, v)) (or_introl eq_refl)) as (n & Fn & T). cbn [fst snd] in Fn, T. rewrite Fn, T. cbn [bind]. rewrite (IH vs N' F'); [reflexivity|intros p Hp; apply K; now right|].
    intros x Hx Hk. apply O; [now right|]. cbn [List.map fst]. intros [<-|H]; [contradiction|contradiction].
Qed.
Lemma read_tuple ts vs ns : Forall2 (fun p n => to_value (fst p) n = Good (snd p)) (combine ts vs) ns -> List.length ts = List.length vs ->
  (fix go (ts : list ty) (ns : list node) : pres (list value) :=
             match ts, ns with
             | [], [] => Good []
             | t :: ts, n :: ns => do v <- to_value t n; do vs <- go ts ns; Good (v :: vs)
             | _, _ => Fail WasmValueError
             end) ts ns = Good vs.
Proof.
  revert vs ns. induction ts as [|t ts IH]; intros [|v vs] ns F L; try discriminate L; inversion F as [|? n ? ns' E F']; subst; [reflexivity|]. cbn [fst snd] in E. rewrite E. cbn [bind]. now rewrite (IH vs ns' F') by now injection L.
Qed.
Lemma read_list t vs ns : Forall2 (fun v n => to_value t n = Good v) vs ns -> mapm (to_value t) ns = Good vs.
Proof. induction 1 as [|v n vs ns E F IH]; [reflexivity|]. cbn [mapm]. rewrite E. cbn [bind]. now rewrite IH. Qed.
Lemma read_variant cases payload p : forall i j name pt, NoDup (List.map fst cases) -> nth_error cases i = Some (name, pt) ->
  maybe_payload (match pt with Some pt => Some (to_value pt) | None => None end) payload = Good p ->
  (fix go (cases : list (str * option ty)) (i : nat) : pres value :=
         match cases with
         | [] => Fail WasmValueError
         | (x, pt) :: cases =>
             if same x name then
               do p <- maybe_payload (match pt with Some pt => Some (to_value pt) | None => None end) payload;
               Good (VVariant i p)
             else go cases (S i)
         end) cases j = Good (VVariant (j + i) p).
Proof.
  induction cases as [|[x xt] cases IH]; intros i j name pt N E M; [destruct i; discriminate|]. cbn [List.map fst] in N. inversion_clear N as [|? ? Nx N']. destruct i as [|i]; cbn [nth_error] in E.
  - injection E as -> ->. rewrite same_refl, M. cbn [bind]. now rewrite Nat.add_0_r.
  - rewrite same_neq; [rewrite (IH i (S j) name pt N' E M); do 2 f_equal; lia|]. intros ->. apply Nx. apply nth_error_In in E. now apply (in_map fst) in E.
Qed.
Lemma node_kw d s r k : In s ["true"; "false"; "some"; "none"; "ok"; "err"; "inf"; "nan"]%string -> stop r -> decode (lit s) = Some k ->
  parse_node (S d) (lit s ++ r) = match k with
      | KTrue => Good (leaf BoolTrue (lit s), r)
      | KFalse => Good (leaf BoolFalse (lit s), r)
      | KSome => parse_some (parse_node d) r
      | KNone => Good (Node NOptionNone [] [], r)
      | KOk => parse_result (parse_node d) NResultOk r
      | KErr => parse_result (parse_node d) NResultErr r
      | (KInf | KNan) => Good (leaf NNumber (lit s), r) end.
Proof.
  intros I R D. cbn [parse_node]. unfold parse_node_inner, advance. rewrite lex_kw by (assumption || now apply kw_label). cbn [bind]. rewrite D. now destruct k.
Qed.

Theorem round_trip : forall d t v, ty_ok t -> has_type t v -> (depth v <= d)%nat -> exists n, reads (parse_node d) (write_value t v) n /\ to_value t n = Good v.
Proof.
  induction d as [|d IH]; intros t v O H D.
  { exfalso. destruct H; cbn [depth] in D; try lia; match goal with P : opt_has _ _ _ |- _ => destruct P; lia end. }
  destruct H as [b|signed w z Z|w b Hb Hn|c Hc|s Hs|t vs F|fields vs F|ts vs F|cases i name t p E P|cases i L|t|t v H|ok err p P|ok err p P|names is S F].
  - (* bool *) exists (leaf (if b then BoolTrue else BoolFalse) (if b then lit "true" else lit "false")). split; [|now destruct b]. intros r R. apply delim_stop in R. cbn [Model.write_value]. destruct b; erewrite node_kw; try reflexivity; try exact R; cbn [In]; tauto.
  - (* int *) exists (leaf NNumber (fmt_int z)). inversion O as [|? ? W| | | | | | | | | | |]; subst. destruct (fmt_int_text z) as (T & NI). split.
    + intros r R. apply delim_stop in R. cbn [Model.write_value parse_node]. unfold parse_node_inner, advance. rewrite (lex_number_app _ _ T NI R). reflexivity.
    + cbn [to_wasm_value]. unfold as_int, leaf. pose proof (int_back signed w z W Z) as B. rewrite B. reflexivity.
  - (* float *) inversion O as [| |? W| | | | | | | | | |]; subst. destruct (contract w W) as ((nb & Np & Nr & Nn) & C). apply is_nan_iff in Nn; try assumption. cbn [Model.write_value]. destruct (is_nan w b) eqn:N.
    + exists (leaf NNumber (lit "nan")). split; [intros r R; apply delim_stop in R; erewrite node_kw; try reflexivity; try exact R; cbn [In]; tauto|]. cbn [to_wasm_value]. unfold as_float, leaf. rewrite Np. cbn [bind]. unfold canonicalize. rewrite Nn. rewrite canonical_quiet by exact W. rewrite <- Hn; [reflexivity|]. now apply is_nan_iff.
    + assert (N' : ~ nan_bits w b) by (rewrite <- is_nan_iff by assumption; congruence). destruct (C b Hb N') as (T & B). exists (leaf NNumber (fmt_float w b)). split.
      * intros r R. apply delim_stop in R. destruct (list_eq_dec Z.eq_dec (fmt_float w b) (lit "inf")) as [E|NE].
        -- rewrite E. erewrite node_kw; try reflexivity; try exact R; cbn [In]; tauto.
        -- cbn [parse_node]. unfold parse_node_inner, advance. rewrite (lex_number_app _ _ T NE R). reflexivity.
      * cbn [to_wasm_value]. unfold as_float, leaf. rewrite B. cbn [bind]. unfold canonicalize. now rewrite N.
  - (* char *) eexists (leaf NChar (39 :: write_char grapheme_extended printable c ++ [39])). split.
    + intros r R. cbn [Model.write_value parse_node]. unfold parse_node_inner, advance. cbn [app]. rewrite lex_chr by assumption. reflexivity.
    + cbn [to_wasm_value]. rewrite char_back by assumption. reflexivity.
  - (* string *) eexists (leaf NString (34 :: flat_map (write_char grapheme_extended printable) s ++ [34])). split.
    + intros r R. cbn [Model.write_value parse_node]. unfold parse_node_inner, advance. cbn [app]. rewrite lex_str by assumption. reflexivity.
    + cbn [to_wasm_value]. rewrite str_back by assumption. reflexivity.
  - (* list *) inversion O as [| | | | |? Ot| | | | | | |]; subst. cbn [depth] in D.
    destruct (exists_list (fun v n => reads (parse_node d) (write_value t v) n /\ to_value t n = Good v) vs) as (ns & F2).
    { rewrite Forall_forall in F |- *. intros v Hv. apply IH; [exact Ot|auto|]. pose proof (many_le depth vs v Hv). lia. }
    apply F2_and in F2 as (F2 & F3). exists (Node NList [] ns). split.
    + intros r R. cbn [Model.write_value parse_node]. unfold parse_node_inner, advance. cbn [app]. rewrite (lex_punct 91 BracketOpen) by (cbn [In]; tauto). cbn [bind]. unfold parse_list. rewrite <- app_assoc. cbn [app].
      rewrite (comma_app d 93 BracketClose _ ns) by (cbn [In]; tauto || now apply F2_map in F2). reflexivity.
    + cbn [to_wasm_value]. now rewrite (read_list t vs ns F3).
  - (* record *) inversion O as [| | | | | |? (Lb & ND) Ot| | | | | |]; subst. cbn [depth] in D.
    destruct (exists_list (fun p n => reads (parse_node d) (snd (item p)) n /\ to_value (fst (snd p)) n = Good (snd (snd p))) (kept fields vs)) as (ns & F2).
    { rewrite Forall_forall. intros p Hp. destruct (kept_in fields vs p Hp F Ot) as (T & O' & I'). apply IH; [exact O'|exact T|]. pose proof (many_le depth vs _ I'). lia. }
    assert (List.length (kept fields vs) = List.length ns) as Len by (clear - F2; induction F2; cbn; congruence).
    assert (Forall label (List.map fst (List.map item (kept fields vs))) /\ NoDup (List.map fst (List.map item (kept fields vs)))) as (Lk & Nk).
    { rewrite map_map. cbn [item fst]. change (fun x => fst (item x)) with (@fst str (ty * value)). split; [|now apply kept_nodup]. rewrite Forall_forall in Lb |- *. intros x Hx. apply Lb. now apply kept_names in Hx. }
    assert (exists n, (forall r, parse_record_or_flags (parse_node d) ((match kept fields vs with [] => lit ":" | _ => commas (List.map field_text (List.map item (kept fields vs))) end) ++ 125 :: r) = Good (n, r))
      /\ n = Node NRecord [] (field_nodes (List.map item (kept fields vs)) ns)) as (n & R & ->).
    { eexists. split; [|reflexivity]. intros r. destruct (kept fields vs) as [|p ps] eqn:K.
      - inversion F2; subst. change (lit ":" ++ 125 :: r) with (58 :: 125 :: r). unfold parse_record_or_flags, advance. rewrite (lex_punct 58 Colon) by (cbn [In]; tauto). cbn [bind]. rewrite (lex_punct 125 BraceClose) by (cbn [In]; tauto). reflexivity.
      - apply (record_app d); [discriminate|exact Lk|exact Nk|]. apply F2_and in F2 as (F2 & _). now apply (F2_map (fun q n => reads (parse_node d) (snd q) n) item) in F2. }
    eexists. split.
    + intros r _. rewrite write_record. cbn [parse_node]. unfold parse_node_inner, advance. cbn [app]. rewrite (lex_punct 123 BraceOpen) by (cbn [In]; tauto). cbn [bind]. rewrite <- app_assoc. cbn [app]. apply R.
    + cbn [to_wasm_value]. rewrite pairs_nodes by (assumption || now rewrite map_length).
      rewrite map_map. change (fun x => fst (item x)) with (@fst str (ty * value)). rewrite (read_fields _ fields vs ND F); [reflexivity| |].
      * intros p Hp. assert (exists n, In (fst p, n) (combine (List.map fst (kept fields vs)) ns) /\ to_value (fst (snd p)) n = Good (snd (snd p))) as (n & I' & T).
        { clear - F2 Hp. induction F2 as [|q n qs ns (_ & T) F IHF]; [destruct Hp|]. destruct Hp as [->|Hp]; [exists n; split; [now left|exact T]|]. destruct (IHF Hp) as (m & X & Y). exists m. split; [now right|exact Y]. }
        exists n. split; [|exact T]. apply field_in; [|exact I'].
        assert (List.map fst (combine (List.map fst (kept fields vs)) ns) = List.map fst (kept fields vs)) as ->; [|now apply kept_nodup].
        clear - Len. revert ns Len. induction (kept fields vs) as [|q qs IHq]; intros [|n ns] L; try discriminate; [reflexivity|]. cbn [List.map combine fst]. f_equal. apply IHq. now injection L.
      * intros name _ Hk. apply field_out. intros H. apply Hk. clear - H. apply in_map_iff in H as ((x & n) & <- & H). now apply in_combine_l in H.
  - (* tuple *) inversion O as [| | | | | | |? NE Ot| | | | |]; subst. cbn [depth] in D.
    assert (List.length ts = List.length vs) as Len by (clear - F; induction F; cbn; congruence).
    destruct (exists_list (fun p n => reads (parse_node d) (write_value (fst p) (snd p)) n /\ to_value (fst p) n = Good (snd p)) (combine ts vs)) as (ns & F2).
    { rewrite Forall_forall. intros [t v] Hv. cbn [fst snd]. pose proof (in_combine_l _ _ _ _ Hv) as Ht. pose proof (in_combine_r _ _ _ _ Hv) as Hv'.
      apply IH; [rewrite Forall_forall in Ot; auto| |pose proof (many_le depth vs v Hv'); lia]. clear - F Hv. induction F as [|a b l l' X F IHF]; [destruct Hv|]. destruct Hv as [E|Hv]; [injection E as -> ->; exact X|auto]. }
    apply F2_and in F2 as (F2 & F3). exists (Node NTuple [] ns). split.
    + intros r R. rewrite write_tuple. cbn [parse_node]. unfold parse_node_inner, advance. cbn [app]. rewrite (lex_punct 40 ParenOpen) by (cbn [In]; tauto). cbn [bind]. unfold parse_tuple. rewrite <- app_assoc. cbn [app].
      rewrite (comma_app d 41 ParenClose _ ns) by (cbn [In]; tauto || now apply (F2_map (reads (parse_node d)) (fun p => write_value (fst p) (snd p))) in F2). cbn [bind].
      destruct ns; [|reflexivity]. exfalso. inversion F2 as [E|]. destruct ts; [contradiction|]. destruct vs; discriminate.
    + cbn [to_wasm_value]. now rewrite (read_tuple ts vs ns F3 Len).
  - (* variant *) inversion O as [| | | | | | | |? (Lb & ND) Ot| | | |]; subst. cbn [depth] in D. pose proof (nth_error_In _ _ E) as Hin.
    assert (label name) as Ln by (rewrite Forall_forall in Lb; apply Lb; now apply (in_map fst) in Hin).
    destruct P as [|t v P].
    + exists (leaf NLabel (label_text name)). split.
      * intros r R. cbn [Model.write_value]. rewrite E, app_nil_r. destruct (label_text_lex name r Ln (delim_stop _ R)) as (X & Y & _). cbn [parse_node]. unfold parse_node_inner, advance. rewrite X. cbn [bind]. rewrite Y. unfold parse_label_maybe_payload. now rewrite no_paren.
      * destruct (label_text_lex name [] Ln Logic.I) as (_ & _ & Sp). cbn [to_wasm_value]. unfold as_variant, leaf. rewrite Sp. cbn [bind]. rewrite (read_variant cases None None i Datatypes.O name None ND E); reflexivity.
    + destruct (IH t v (Ot _ _ Hin) P) as (n & Rn & Tn); [lia|]. exists (Node NVariantWithPayload [] [leaf NLabel (label_text name); n]). split.
      * intros r R. cbn [Model.write_value]. rewrite E, <- app_assoc. cbn [app]. rewrite <- app_assoc. cbn [app].
        destruct (label_text_lex name (40 :: write_value t v ++ 41 :: r) Ln) as (X & Y & _); [repeat split; (reflexivity || discriminate)|]. cbn [parse_node]. unfold parse_node_inner, advance. rewrite X. cbn [bind]. rewrite Y. unfold parse_label_maybe_payload.
        destruct (payload_app d _ n r Rn) as (-> & ->). reflexivity.
      * destruct (label_text_lex name [] Ln Logic.I) as (_ & _ & Sp). cbn [to_wasm_value]. unfold as_variant, as_label, leaf. rewrite Sp. cbn [bind]. rewrite (read_variant cases (Some n) (Some v) i Datatypes.O name (Some t) ND E); [reflexivity|]. cbn [maybe_payload]. now rewrite Tn.
  - (* enum *) inversion O as [| | | | | | | | |? (Lb & ND)| | |]; subst. pose proof (nth_error_nth' cases [] L) as E.
    assert (label (nth i cases [])) as Ln by (rewrite Forall_forall in Lb; apply Lb; now apply nth_In).
    exists (leaf NLabel (label_text (nth i cases []))). split.
    + intros r R. cbn [Model.write_value]. rewrite E. destruct (label_text_lex _ r Ln (delim_stop _ R)) as (X & Y & _). cbn [parse_node]. unfold parse_node_inner, advance. rewrite X. cbn [bind]. rewrite Y. unfold parse_label_maybe_payload. now rewrite no_paren.
    + destruct (label_text_lex _ [] Ln Logic.I) as (_ & _ & Sp). cbn [to_wasm_value]. unfold as_label, leaf. rewrite Sp. cbn [bind]. now rewrite position_nth.
  - (* none *) exists (Node NOptionNone [] []). split; [|reflexivity]. intros r R. apply delim_stop in R. cbn [Model.write_value]. erewrite node_kw; try reflexivity; try exact R; cbn [In]; tauto.
  - (* some *) inversion O as [| | | | | | | | | |? Ot| |]; subst. cbn [depth] in D. destruct (IH t v Ot H) as (n & Rn & Tn); [lia|]. exists (Node NOptionSome [] [n]). split.
    + intros r R. cbn [Model.write_value]. change (lit "some(") with (lit "some" ++ [40]). rewrite <- !app_assoc. cbn [app]. change (lit "some" ++ 40 :: write_value t v ++ 41 :: r) with (lit "some" ++ (40 :: write_value t v ++ 41 :: r)).
      erewrite node_kw; [|cbn [In]; tauto|repeat split; (reflexivity || discriminate)|reflexivity]. unfold parse_some. destruct (payload_app d _ n r Rn) as (_ & ->). reflexivity.
    + cbn [to_wasm_value]. now rewrite Tn.
  - (* ok *) inversion O as [| | | | | | | | | | |? ? Ok Oe|]; subst. cbn [depth] in D. destruct P as [|t v P].
    + exists (Node NResultOk [] []). split; [|reflexivity]. intros r R. cbn [Model.write_value]. rewrite app_nil_r. erewrite node_kw; [|cbn [In]; tauto|now apply delim_stop|reflexivity]. unfold parse_result. now rewrite no_paren.
    + destruct (IH t v (Ok t eq_refl) P) as (n & Rn & Tn); [lia|]. exists (Node NResultOk [] [n]). split.
      * intros r R. cbn [Model.write_value]. rewrite <- app_assoc. cbn [app]. rewrite <- app_assoc. cbn [app]. erewrite node_kw; [|cbn [In]; tauto|repeat split; (reflexivity || discriminate)|reflexivity]. unfold parse_result. destruct (payload_app d _ n r Rn) as (-> & ->). reflexivity.
      * cbn [to_wasm_value hd_error maybe_payload]. now rewrite Tn.
  - (* err *) inversion O as [| | | | | | | | | | |? ? Ok Oe|]; subst. cbn [depth] in D. destruct P as [|t v P].
    + exists (Node NResultErr [] []). split; [|reflexivity]. intros r R. cbn [Model.write_value]. rewrite app_nil_r. erewrite node_kw; [|cbn [In]; tauto|now apply delim_stop|reflexivity]. unfold parse_result. now rewrite no_paren.
    + destruct (IH t v (Oe t eq_refl) P) as (n & Rn & Tn); [lia|]. exists (Node NResultErr [] [n]). split.
      * intros r R. cbn [Model.write_value]. rewrite <- app_assoc. cbn [app]. rewrite <- app_assoc. cbn [app]. erewrite node_kw; [|cbn [In]; tauto|repeat split; (reflexivity || discriminate)|reflexivity]. unfold parse_result. destruct (payload_app d _ n r Rn) as (-> & ->). reflexivity.
      * cbn [to_wasm_value hd_error maybe_payload]. now rewrite Tn.
  - (* flags *) inversion O as [| | | | | | | | | | | |? (Lb & ND)]; subst.
    set (set := List.map (fun i => nth i names []) is).
    assert (Forall label set /\ NoDup set) as (Ls & Ns).
    { split.
      - unfold set. rewrite Forall_map. rewrite Forall_forall in F, Lb |- *. intros i Hi. apply Lb. apply nth_In. auto.
      - unfold set. clear - S F ND. induction S as [|i is S IHS Lt]; [constructor|]. inversion_clear F as [|? ? Fi F']. cbn [List.map]. constructor; [|auto]. intros H. apply in_map_iff in H as (j & E & Hj). rewrite Forall_forall in Lt, F'. specialize (Lt _ Hj). specialize (F' _ Hj).
        assert (j = i); [|lia]. eapply (proj1 (NoDup_nth names [])); eauto. }
    exists (Node NFlags [] (List.map snd (put_all set []))). split.
    + intros r R. cbn [Model.write_value]. fold set. cbn [parse_node]. unfold parse_node_inner, advance. cbn [app]. rewrite (lex_punct 123 BraceOpen) by (cbn [In]; tauto). cbn [bind]. rewrite <- app_assoc. cbn [app]. now apply flags_app.
    + cbn [to_wasm_value]. unfold make_flags.
      assert (Permutation (List.map (fun n => match n with Node _ slice _ => slice end) (List.map snd (put_all set []))) set) as P.
      { rewrite put_all_perm, app_nil_r, !map_map. cbn [snd leaf]. now rewrite map_id. }
      unfold set in P at 2. apply Permutation_map_inv in P as (is' & -> & P').
      rewrite mapm_position; [|exact ND|eapply Permutation_Forall; [exact P'|exact F]]. cbn [bind]. rewrite (sort_back is is'); [reflexivity|exact S|now apply Permutation_sym].
Qed.
End Main.
