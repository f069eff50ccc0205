(** The lexer on words and strings. *)
From Coq Require Import ZArith Lia List Bool String Arith.
From Verif Require Import Base.Prelude Base.Utf8 Names.Kebab Names.Name Names.NameProofs Text.Lexer Text.Spec.
Import ListNotations.
Open Scope Z_scope.

Lemma eaten_app : forall t r, eaten (t ++ r) r = t.
Proof.
  intros t r. unfold eaten. rewrite app_length. replace (List.length t + List.length r - List.length r)%nat with (List.length t) by lia.
  rewrite firstn_app, Nat.sub_diag, firstn_all. cbn. apply app_nil_r.
Qed.
Lemma eaten_suffix : forall s r, (exists t, s = t ++ r) -> s = eaten s r ++ r.
Proof. intros s r [t ->]. rewrite eaten_app. reflexivity. Qed.

(** Digits. *)
Lemma range_iff : forall a b c, in_range a b c = true <-> a <= c <= b.
Proof. intros. unfold in_range. rewrite andb_true_iff, !Z.leb_le. reflexivity. Qed.
Lemma range_false : forall a b c, in_range a b c = false <-> ~ (a <= c <= b).
Proof. intros. rewrite <- range_iff. destruct (in_range a b c); split; congruence. Qed.
Lemma index_seq : forall s c i v, index_of c s i = Some v -> exists k, nth_error s k = Some c /\ v = i + Z.of_nat k.
Proof.
  induction s as [|x s IH]; cbn [index_of]; intros c i v H; [discriminate|].
  destruct (c =? x) eqn:E.
  - apply Z.eqb_eq in E. injection H as <-. exists O. subst. split; [reflexivity|lia].
  - apply IH in H. destruct H as (k & A & B). exists (S k). split; [exact A|lia].
Qed.
Lemma digit_value_hex : forall c v, digit_value c = Some v <-> (is_hex c = true /\ v = to_hex c).
Proof.
  intros c v. unfold digit_value, is_hex, to_hex.
  assert (D : (c < 48 \/ 57 < c) /\ (c < 97 \/ 102 < c) /\ (c < 65 \/ 70 < c) \/
    In c [48;49;50;51;52;53;54;55;56;57;97;98;99;100;101;102;65;66;67;68;69;70]) by (cbn [In]; lia).
  destruct D as [(A & B & C)|D].
  - assert (E1 : index_of c (lit "0123456789abcdef") 0 = None).
    { cbn -[Z.eqb]. repeat (match goal with |- context [c =? ?k] => replace (c =? k) with false by (symmetry; apply Z.eqb_neq; lia) end). reflexivity. }
    assert (E2 : index_of c (lit "ABCDEF") 10 = None).
    { cbn -[Z.eqb]. repeat (match goal with |- context [c =? ?k] => replace (c =? k) with false by (symmetry; apply Z.eqb_neq; lia) end). reflexivity. }
    rewrite E1, E2. assert (in_range 48 57 c = false) as -> by (apply range_false; lia).
    assert (in_range 97 102 c = false) as -> by (apply range_false; lia).
    assert (in_range 65 70 c = false) as -> by (apply range_false; lia).
    split; [discriminate|intros [H _]; discriminate].
  - cbn [In] in D. repeat destruct D as [<-|D]; try contradiction D;
      (split; [intros H; vm_compute in H; injection H as <-; split; reflexivity | intros [_ ->]; reflexivity]).
Qed.
Lemma is_digit_16 : forall c, is_digit 16 c <-> is_hex c = true.
Proof.
  intros c. unfold is_digit. split.
  - intros (v & A & _). apply digit_value_hex in A. tauto.
  - intros H. exists (to_hex c). split; [apply digit_value_hex; auto|].
    unfold is_hex in H. unfold to_hex. rewrite !orb_true_iff, !range_iff in H.
    destruct (in_range 97 102 c) eqn:A; [apply range_iff in A; lia|]. apply range_false in A.
    destruct (in_range 65 70 c) eqn:B; [apply range_iff in B; lia|]. apply range_false in B. lia.
Qed.
Lemma is_digit_10 : forall c, is_digit 10 c <-> is_dec c = true.
Proof.
  intros c. unfold is_digit, is_dec. split.
  - intros (v & A & B). apply digit_value_hex in A. destruct A as [A ->]. unfold is_hex in A. unfold to_hex in B.
    rewrite !orb_true_iff, !range_iff in A. apply range_iff.
    destruct (in_range 97 102 c) eqn:C; [apply range_iff in C; lia|]. apply range_false in C.
    destruct (in_range 65 70 c) eqn:D; [apply range_iff in D; lia|]. apply range_false in D. lia.
  - intros H. exists (to_hex c). unfold is_hex in *. split.
    + apply digit_value_hex. unfold is_hex. rewrite H. auto.
    + apply range_iff in H. unfold to_hex.
      assert (in_range 97 102 c = false) as -> by (apply range_false; lia).
      assert (in_range 65 70 c = false) as -> by (apply range_false; lia). lia.
Qed.
Lemma to_hex_range : forall c, is_hex c = true -> 0 <= to_hex c < 16.
Proof.
  intros c H. split; [|destruct (proj2 (is_digit_16 c) H) as (v & A & B); apply digit_value_hex in A; destruct A as [_ ->]; exact B].
  unfold is_hex in H. unfold to_hex. rewrite !orb_true_iff, !range_iff in H.
  destruct (in_range 97 102 c) eqn:A; [apply range_iff in A; lia|]. apply range_false in A.
  destruct (in_range 65 70 c) eqn:B; [apply range_iff in B; lia|]. apply range_false in B. lia.
Qed.

(** Words. *)
Lemma existsb_In : forall c l, existsb (Z.eqb c) l = true <-> In c l.
Proof.
  intros. rewrite existsb_exists. split.
  - intros (x & A & B). apply Z.eqb_eq in B. subst. exact A.
  - intros H. exists c. split; [exact H|apply Z.eqb_refl].
Qed.
Lemma idchar_word : forall c, idchar c = true <-> word_char c.
Proof. intros c. unfold idchar, word_char. rewrite !orb_true_iff, !range_iff, existsb_In. tauto. Qed.
Lemma idchar_not_word : forall c, idchar c = false <-> ~ word_char c.
Proof. intros c. rewrite <- idchar_word. destruct (idchar c); split; congruence. Qed.
Lemma quote_not_idchar : idchar 34 = false.
Proof. reflexivity. Qed.

Lemma reserved_stop : forall fuel allow i n rest, delimited rest -> reserved_loop (S fuel) allow i n rest = LOk (i, n, rest).
Proof.
  intros fuel allow i n [|c rest] D; [reflexivity|]. cbn [reserved_loop delimited] in *. destruct D as [D1 D2].
  apply idchar_not_word in D1. rewrite D1. destruct (c =? 34) eqn:E; [apply Z.eqb_eq in E; contradiction|reflexivity].
Qed.
Lemma reserved_word : forall t fuel allow i n s, Forall (fun c => idchar c = true) t ->
  reserved_loop (List.length t + fuel) allow i n (t ++ s) = reserved_loop fuel allow (List.length t + i) n s.
Proof.
  induction t as [|c t IH]; intros fuel allow i n s F; [reflexivity|].
  inversion_clear F as [|? ? F1 F2]. cbn [List.length app Nat.add reserved_loop]. rewrite F1, IH by exact F2.
  f_equal. lia.
Qed.
Lemma word_token : forall allow t rest, t <> [] -> Forall (fun c => idchar c = true) t -> delimited rest ->
  parse_reserved allow (t ++ rest) = LOk (RIdchars, t, rest).
Proof.
  intros allow t rest N F D. unfold parse_reserved. rewrite app_length.
  replace (S (List.length t + List.length rest)) with (List.length t + S (List.length rest))%nat by lia.
  rewrite reserved_word by exact F. rewrite reserved_stop by exact D. cbn [lbind].
  rewrite eaten_app. destruct t as [|z t]; [contradiction|]. cbn [List.length Nat.add]. destruct (List.length t + 0)%nat; reflexivity.
Qed.
Lemma idchar_dispatch : forall c, idchar c = true -> (c =? 40) = false /\ (c =? 41) = false /\ is_ws c = false.
Proof.
  intros c H. unfold is_ws.
  repeat split;
    repeat match goal with |- context [c =? ?k] =>
      assert ((c =? k) = false) as -> by (apply Z.eqb_neq; intros ->; discriminate H) end; reflexivity.
Qed.
Lemma word_kind : forall allow t rest, t <> [] -> Forall (fun c => idchar c = true) t -> delimited rest ->
  forall k, classify_number t = Some k -> parse_token allow (t ++ rest) = LOk (Some (k, t, rest)).
Proof.
  intros allow [|c t] rest N F D k C; [contradiction|]. unfold parse_token. cbn [app].
  assert (F1 : idchar c = true) by (inversion F; assumption).
  destruct (idchar_dispatch c F1) as (-> & -> & ->). rewrite F1. cbn [orb].
  change (c :: t ++ rest) with ((c :: t) ++ rest). rewrite word_token by assumption. cbn [lbind].
  rewrite C, eaten_app. reflexivity.
Qed.

(** Strings: what the loop has collected so far. *)
Definition st_ok (orig it : str) (st : option (list Z)) (p : list Z) : Prop :=
  match st with Some b => b = p | None => exists pre, orig = pre ++ it /\ p = utf8_encode pre end.
Lemma encode_app : forall a b, utf8_encode (a ++ b) = utf8_encode a ++ utf8_encode b.
Proof. induction a as [|c a IH]; intros; [reflexivity|]. cbn [app utf8_encode]. rewrite IH. apply app_assoc. Qed.
Lemma consumed_pre : forall pre c it, consumed (pre ++ c :: it) it = utf8_encode pre.
Proof.
  intros. unfold consumed. f_equal. rewrite app_length. cbn [List.length].
  replace (List.length pre + S (List.length it) - List.length it - 1)%nat with (List.length pre) by lia.
  rewrite firstn_app, Nat.sub_diag, firstn_all. cbn. apply app_nil_r.
Qed.
Lemma st_buf : forall orig c it st p, st_ok orig (c :: it) st p ->
  match st with Some b => b | None => consumed orig it end = p.
Proof.
  intros orig c it [b|] p H; [exact H|]. destruct H as (pre & -> & ->). apply consumed_pre.
Qed.
Lemma st_buf2 : forall orig c it st p, st_ok orig (c :: it) st p ->
  match st with None => consumed orig it | Some b => b end = p.
Proof. exact st_buf. Qed.

Definition plain_ok (allow : bool) (c : Z) : Prop := allow = true \/ confusing c = false.

(** hexnum *)
Lemma hexnumber_start : forall t n, hexnumber t n -> exists d t' , t = d :: t' /\ is_hex d = true.
Proof.
  intros t n H. induction H as [d v A|s n d v H (d0 & t' & -> & B) A|s n k d v H (d0 & t' & -> & B) A].
  - apply digit_value_hex in A. exists d, []. tauto.
  - exists d0, (t' ++ [d]). split; [reflexivity|exact B].
  - exists d0, (t' ++ repeat 95 k ++ [d]). split; [reflexivity|exact B].
Qed.
Lemma hexnumber_nonneg : forall t n, hexnumber t n -> 0 <= n.
Proof.
  intros t n H. induction H as [d v A|s n d v H IH A|s n k d v H IH A];
    apply digit_value_hex in A; destruct A as [A ->]; apply to_hex_range in A; lia.
Qed.
Lemma us_skip : forall k n last s, hexnum_loop n last (repeat 95 k ++ s) = hexnum_loop n (match k with O => last | _ => true end) s.
Proof.
  induction k as [|k IH]; intros; [reflexivity|]. cbn [repeat app hexnum_loop]. cbn [Z.eqb Pos.eqb]. rewrite IH. destruct k; reflexivity.
Qed.
Lemma hex_not_us : forall c, is_hex c = true -> (c =? 95) = false.
Proof. intros c H. destruct (c =? 95) eqn:E; [apply Z.eqb_eq in E; subst; discriminate|reflexivity]. Qed.
Lemma hexnum_step : forall n last c s, is_hex c = true -> 0 <= n -> n * 16 + to_hex c < 2 ^ 32 ->
  hexnum_loop n last (c :: s) = hexnum_loop (n * 16 + to_hex c) false s.
Proof.
  intros n last c s H N B. cbn [hexnum_loop]. rewrite (hex_not_us c H), H. cbn [negb].
  pose proof (to_hex_range c H) as R. unfold u32_checked.
  destruct (n * 16 <? 2 ^ 32) eqn:E1; [|apply Z.ltb_ge in E1; lia].
  destruct (n * 16 + to_hex c <? 2 ^ 32) eqn:E2; [reflexivity|apply Z.ltb_ge in E2; lia].
Qed.
(** [hexnum] reads a whole [hexnumber] whatever follows. *)
Lemma hexnum_reads : forall t n, hexnumber t n -> n < 2 ^ 32 -> forall s,
  hexnum (t ++ s) = hexnum_loop n false s.
Proof.
  intros t n H. induction H as [d v A|t n d v H IH A|t n k d v H IH A]; intros B s.
  - apply digit_value_hex in A. destruct A as [A ->]. unfold hexnum, hexdigit, must_char. cbn [app lbind]. rewrite A. reflexivity.
  - apply digit_value_hex in A. destruct A as [A ->]. pose proof (to_hex_range d A) as R.
    pose proof (hexnumber_nonneg _ _ H) as N.
    rewrite <- app_assoc. rewrite IH by lia. cbn [app]. apply hexnum_step; [exact A|exact N|exact B].
  - apply digit_value_hex in A. destruct A as [A ->]. pose proof (to_hex_range d A) as R.
    pose proof (hexnumber_nonneg _ _ H) as N.
    rewrite <- !app_assoc. rewrite IH by lia. rewrite us_skip. cbn [app]. apply hexnum_step; [exact A|exact N|exact B].
Qed.
(** ... and reads nothing else. *)
Lemma hexnum_loop_sound : forall s t n n' last rest k, hexnumber t n -> (last = true -> k <> O) -> (last = false -> k = O) ->
  hexnum_loop n last s = LOk (n', rest) -> n < 2 ^ 32 ->
  exists t', repeat 95 k ++ s = t' ++ rest /\ hexnumber (t ++ t') n' /\ n' < 2 ^ 32.
Proof.
  induction s as [|c s IH]; intros t n n' last rest k H K1 K2 L B.
  - cbn [hexnum_loop] in L. destruct last; [discriminate|]. injection L as <- <-. exists []. rewrite K2 by reflexivity. cbn.
    rewrite app_nil_r. auto.
  - cbn [hexnum_loop] in L. destruct (c =? 95) eqn:E.
    + apply Z.eqb_eq in E. subst c.
      specialize (IH t n n' true rest (S k) H ltac:(lia) ltac:(discriminate) L B).
      destruct IH as (t' & A & C). exists t'. split; [|exact C]. rewrite <- A. change (repeat 95 (S k)) with (95 :: repeat 95 k).
      rewrite repeat_cons. rewrite <- app_assoc. reflexivity.
    + destruct (is_hex c) eqn:X; cbn [negb] in L.
      * destruct (u32_checked (n * 16)) as [m|] eqn:U1; [|discriminate].
        destruct (u32_checked (m + to_hex c)) as [m'|] eqn:U2; [|discriminate].
        unfold u32_checked in U1, U2. destruct (n * 16 <? 2 ^ 32) eqn:V1; [|discriminate]. injection U1 as <-.
        destruct (n * 16 + to_hex c <? 2 ^ 32) eqn:V2; [|discriminate]. injection U2 as <-. apply Z.ltb_lt in V2.
        assert (H' : hexnumber (t ++ repeat 95 k ++ [c]) (n * 16 + to_hex c)).
        { apply H_under; [exact H|apply digit_value_hex; auto]. }
        specialize (IH _ _ n' false rest O H' ltac:(discriminate) ltac:(reflexivity) L V2).
        destruct IH as (t' & A & C). cbn in A. exists (repeat 95 k ++ [c] ++ t').
        split; [rewrite A; rewrite <- !app_assoc; reflexivity|]. rewrite <- !app_assoc in C. exact C.
      * destruct last; [discriminate|]. injection L as <- <-. rewrite K2 by reflexivity. exists []. cbn. rewrite app_nil_r. auto.
Qed.
Lemma hexnum_sound : forall s n rest, hexnum s = LOk (n, rest) -> exists t, s = t ++ rest /\ hexnumber t n /\ n < 2 ^ 32.
Proof.
  intros [|c s] n rest H; [discriminate|]. unfold hexnum, hexdigit, must_char in H. cbn [lbind] in H.
  destruct (is_hex c) eqn:X; [|discriminate]. cbn [lbind] in H.
  pose proof (to_hex_range c X) as R.
  destruct (hexnum_loop_sound s [c] (to_hex c) n false rest O) as (t' & A & B & C); try assumption; try discriminate; try reflexivity.
  - constructor. apply digit_value_hex. auto.
  - lia.
  - exists (c :: t'). cbn in A. rewrite A. auto.
Qed.

Lemma must_eat_ok : forall c it r, must_eat_char c it = LOk r <-> it = c :: r.
Proof.
  intros c [|d it] r; unfold must_eat_char, must_char; cbn [lbind]; [split; discriminate|].
  destruct (c =? d) eqn:E; [apply Z.eqb_eq in E; subst; split; intros H; injection H as <-; reflexivity|].
  apply Z.eqb_neq in E. split; [discriminate|]. intros H. injection H as H1 H2. congruence.
Qed.
Lemma hexdigit_ok : forall it v r, hexdigit it = LOk (v, r) <-> exists d, it = d :: r /\ digit_value d = Some v.
Proof.
  intros [|d it] v r; unfold hexdigit, must_char; cbn [lbind].
  - split; [discriminate|]. intros (d & A & _). discriminate.
  - destruct (is_hex d) eqn:E.
    + split; [intros H; injection H as <- <-; exists d; split; [reflexivity|apply digit_value_hex; auto]|].
      intros (d' & A & B). injection A as <- <-. apply digit_value_hex in B. destruct B as [_ ->]. reflexivity.
    + split; [discriminate|]. intros (d' & A & B). injection A as <- <-. apply digit_value_hex in B. destruct B. congruence.
Qed.

(** The loop reads any [contents] up to the closing quote. *)
Lemma elem_nonempty : forall P t b, elem P t b -> t <> [].
Proof. intros P t b H. destruct H; discriminate. Qed.
Ltac eqbs c := repeat match goal with |- context [c =? ?k] =>
   let E := fresh in destruct (c =? k) eqn:E; [apply Z.eqb_eq in E; subst; try congruence; try lia; try discriminate|] end.
Lemma str_elem : forall allow t b, elem (plain_ok allow) t b -> forall fuel orig st p s, st_ok orig (t ++ s) st p -> s <> [] ->
  exists st', str_loop (S fuel) allow orig st (t ++ s) = str_loop fuel allow orig st' s /\ st_ok orig s st' (p ++ b).
Proof.
  intros allow t b E fuel orig st p s H NE. destruct E as [c R N1 N2 N3 P| | | | | | |h l vh vl A B|t n A B C].
  - cbn [app] in *. cbn [str_loop]. eqbs c. apply Z.ltb_ge in R.
    rewrite R. replace (c =? 127) with false by (symmetry; apply Z.eqb_neq; lia). cbn [orb].
    assert (negb allow && confusing c = false) as ->.
    { destruct P as [-> | ->]; [reflexivity|apply andb_false_r]. }
    eexists. split; [reflexivity|]. destruct st as [b|]; cbn [st_ok] in *; [subst; reflexivity|].
    destruct H as (pre & -> & ->). exists (pre ++ [c]). rewrite <- app_assoc. split; [reflexivity|].
    rewrite encode_app. cbn. rewrite app_nil_r. reflexivity.
  - change (lit "\""" ++ s) with (92 :: 34 :: s) in *. pose proof (st_buf _ _ _ _ _ H) as Q. eexists. split.
    { cbn -[consumed]. rewrite Q. reflexivity. } reflexivity.
  - change (lit "\'" ++ s) with (92 :: 39 :: s) in *. pose proof (st_buf _ _ _ _ _ H) as Q. eexists. split.
    { cbn -[consumed]. rewrite Q. reflexivity. } reflexivity.
  - change (lit "\t" ++ s) with (92 :: 116 :: s) in *. pose proof (st_buf _ _ _ _ _ H) as Q. eexists. split.
    { cbn -[consumed]. rewrite Q. reflexivity. } reflexivity.
  - change (lit "\n" ++ s) with (92 :: 110 :: s) in *. pose proof (st_buf _ _ _ _ _ H) as Q. eexists. split.
    { cbn -[consumed]. rewrite Q. reflexivity. } reflexivity.
  - change (lit "\r" ++ s) with (92 :: 114 :: s) in *. pose proof (st_buf _ _ _ _ _ H) as Q. eexists. split.
    { cbn -[consumed]. rewrite Q. reflexivity. } reflexivity.
  - change (lit "\\" ++ s) with (92 :: 92 :: s) in *. pose proof (st_buf _ _ _ _ _ H) as Q. eexists. split.
    { cbn -[consumed]. rewrite Q. reflexivity. } reflexivity.
  - cbn [app] in *. pose proof (st_buf _ _ _ _ _ H) as Q. apply digit_value_hex in A. destruct A as [A ->].
    cbn [str_loop]. change (92 =? 34) with false. change (92 =? 92) with true. cbv iota. rewrite Q.
    assert (HD : hexdigit (l :: s) = LOk (vl, s)) by (apply hexdigit_ok; eauto). rewrite HD. cbn [lbind].
    eqbs h. rewrite A. eexists. split; reflexivity.
  - rewrite <- !app_assoc in *. change (lit "\u{" ++ t ++ lit "}" ++ s) with (92 :: 117 :: 123 :: t ++ 125 :: s) in *.
    pose proof (st_buf _ _ _ _ _ H) as Q.
    cbn [str_loop]. change (92 =? 34) with false. change (92 =? 92) with true. cbv iota. rewrite Q.
    change (117 =? 34) with false. change (117 =? 39) with false. change (117 =? 116) with false. change (117 =? 110) with false.
    change (117 =? 114) with false. change (117 =? 92) with false. change (117 =? 117) with true. cbv iota.
    assert (M : must_eat_char 123 (123 :: t ++ 125 :: s) = LOk (t ++ 125 :: s)) by (apply must_eat_ok; reflexivity).
    rewrite M. cbn [lbind]. rewrite (hexnum_reads t n A B). cbn [hexnum_loop]. change (125 =? 95) with false.
    change (is_hex 125) with false. cbn [negb lbind]. rewrite C.
    assert (M' : must_eat_char 125 (125 :: s) = LOk s) by (apply must_eat_ok; reflexivity). rewrite M'. cbn [lbind].
    eexists. split; reflexivity.
Qed.
Lemma str_contents : forall allow t b, contents (plain_ok allow) t b -> forall fuel orig st p rest,
  st_ok orig (t ++ 34 :: rest) st p -> (List.length t < fuel)%nat ->
  str_loop fuel allow orig st (t ++ 34 :: rest) = LOk (p ++ b, rest).
Proof.
  intros allow t b H. induction H as [|t b ts bs E H IH]; intros fuel orig st p rest S F.
  - destruct fuel as [|fuel]; [lia|]. cbn [app str_loop]. change (34 =? 34) with true. cbv iota.
    rewrite (st_buf2 _ _ _ _ _ S). rewrite app_nil_r. reflexivity.
  - destruct fuel as [|fuel]; [lia|]. rewrite <- app_assoc in *.
    destruct (str_elem allow t b E fuel orig st p (ts ++ 34 :: rest) S) as (st' & A & B); [destruct ts; discriminate|].
    rewrite A. rewrite (IH fuel orig st' (p ++ b) rest B).
    + rewrite <- app_assoc. reflexivity.
    + pose proof (elem_nonempty _ _ _ E). rewrite app_length in F. destruct t; [contradiction|]. cbn [List.length] in F. lia.
Qed.
Lemma parse_str_complete : forall allow t b rest, contents (plain_ok allow) t b -> parse_str allow (t ++ 34 :: rest) = LOk (b, rest).
Proof.
  intros allow t b rest H. unfold parse_str. rewrite (str_contents allow t b H _ _ None [] rest); [reflexivity| |].
  - exists []. split; reflexivity.
  - rewrite app_length. cbn. lia.
Qed.

(** The loop reads nothing else. *)
Lemma str_sound : forall fuel allow orig st p it b rest, st_ok orig it st p -> str_loop fuel allow orig st it = LOk (b, rest) ->
  exists t c, it = t ++ 34 :: rest /\ b = p ++ c /\ contents (plain_ok allow) t c.
Proof.
  induction fuel as [|fuel IH]; intros allow orig st p it b rest H L; [discriminate|].
  destruct it as [|c it]; [discriminate|]. cbn [str_loop] in L.
  destruct (c =? 34) eqn:E34.
  { apply Z.eqb_eq in E34. subst c. rewrite (st_buf2 _ _ _ _ _ H) in L. injection L as <- <-.
    exists [], []. rewrite app_nil_r. split; [reflexivity|]. split; [reflexivity|constructor]. }
  destruct (c =? 92) eqn:E92.
  { apply Z.eqb_eq in E92. subst c. rewrite (st_buf _ _ _ _ _ H) in L.
    destruct it as [|x it]; [discriminate|].
    assert (STEP : forall t1 b1 it', elem (plain_ok allow) t1 b1 -> 92 :: x :: it = t1 ++ it' ->
              str_loop fuel allow orig (Some (p ++ b1)) it' = LOk (b, rest) ->
              exists t c, 92 :: x :: it = t ++ 34 :: rest /\ b = p ++ c /\ contents (plain_ok allow) t c).
    { intros t1 b1 it' EL EQ LO.
      destruct (IH allow orig (Some (p ++ b1)) (p ++ b1) it' b rest eq_refl LO) as (t & c & A & B & C).
      exists (t1 ++ t), (b1 ++ c). rewrite EQ, A, B, <- !app_assoc. split; [reflexivity|]. split; [reflexivity|].
      constructor; assumption. }
    destruct (x =? 34) eqn:X1. { apply Z.eqb_eq in X1. subst. eapply STEP; [apply E_quote|reflexivity|exact L]. }
    destruct (x =? 39) eqn:X2. { apply Z.eqb_eq in X2. subst. eapply STEP; [apply E_tick|reflexivity|exact L]. }
    destruct (x =? 116) eqn:X3. { apply Z.eqb_eq in X3. subst. eapply STEP; [apply E_tab|reflexivity|exact L]. }
    destruct (x =? 110) eqn:X4. { apply Z.eqb_eq in X4. subst. eapply STEP; [apply E_newline|reflexivity|exact L]. }
    destruct (x =? 114) eqn:X5. { apply Z.eqb_eq in X5. subst. eapply STEP; [apply E_return|reflexivity|exact L]. }
    destruct (x =? 92) eqn:X6. { apply Z.eqb_eq in X6. subst. eapply STEP; [apply E_backslash|reflexivity|exact L]. }
    destruct (x =? 117) eqn:X7.
    { apply Z.eqb_eq in X7. subst.
      destruct (must_eat_char 123 it) as [it1|] eqn:M1; cbn [lbind] in L; [|discriminate]. apply must_eat_ok in M1. subst it.
      destruct (hexnum it1) as [[n it2]|] eqn:HN; cbn [lbind] in L; [|discriminate].
      destruct (is_scalar n) eqn:SC; [|discriminate].
      destruct (must_eat_char 125 it2) as [it3|] eqn:M2; cbn [lbind] in L; [|discriminate]. apply must_eat_ok in M2. subst it2.
      apply hexnum_sound in HN. destruct HN as (t & A & B & C). subst it1.
      eapply STEP; [apply (E_unicode _ t n B C SC)| |exact L]. rewrite <- !app_assoc. reflexivity. }
    destruct (is_hex x) eqn:X8; [|discriminate].
    destruct (hexdigit it) as [[c2 it2]|] eqn:HD; cbn [lbind] in L; [|discriminate].
    apply hexdigit_ok in HD. destruct HD as (d & A & B). subst it.
    eapply STEP; [apply (E_byte _ x d (to_hex x) c2)|reflexivity|exact L]; [apply digit_value_hex; auto|exact B]. }
  destruct ((c <? 32) || (c =? 127)) eqn:EC; [discriminate|]. apply orb_false_iff in EC. destruct EC as [EC1 EC2].
  destruct (negb allow && confusing c) eqn:CF; [discriminate|].
  apply Z.eqb_neq in E34, E92, EC2. apply Z.ltb_ge in EC1.
  assert (P : plain_ok allow c).
  { unfold plain_ok. apply andb_false_iff in CF. destruct CF as [CF|CF]; [left; destruct allow; [reflexivity|discriminate]|right; exact CF]. }
  assert (EL : elem (plain_ok allow) [c] (utf8_encode_char c)) by (constructor; assumption).
  assert (H' : st_ok orig it (match st with None => None | Some b => Some (b ++ utf8_encode_char c) end) (p ++ utf8_encode_char c)).
  { destruct st as [b0|]; cbn [st_ok] in *; [subst; reflexivity|].
    destruct H as (pre & -> & ->). exists (pre ++ [c]). rewrite <- app_assoc. split; [reflexivity|].
    rewrite encode_app. cbn. rewrite app_nil_r. reflexivity. }
  destruct (IH _ _ _ _ _ _ _ H' L) as (t & c' & A & B & C).
  exists ([c] ++ t), (utf8_encode_char c ++ c'). rewrite A, B, <- !app_assoc. split; [reflexivity|]. split; [reflexivity|].
  constructor; assumption.
Qed.
Theorem parse_str_iff : forall allow it b rest,
  parse_str allow it = LOk (b, rest) <-> exists t, it = t ++ 34 :: rest /\ contents (plain_ok allow) t b.
Proof.
  intros allow it b rest. split.
  - intros H. unfold parse_str in H. apply (str_sound _ _ _ _ []) in H.
    + destruct H as (t & c & A & B & C). cbn in B. subst. eauto.
    + exists []. split; reflexivity.
  - intros (t & -> & C). apply parse_str_complete. exact C.
Qed.
(** No fuel is ever missing. *)
Lemma hexnum_rest : forall s n rest, hexnum s = LOk (n, rest) -> (List.length rest < List.length s)%nat.
Proof.
  intros s n rest H. apply hexnum_sound in H. destruct H as (t & -> & H & _). apply hexnumber_start in H.
  destruct H as (d & t' & -> & _). rewrite app_length. cbn. lia.
Qed.
Lemma str_fuel : forall fuel allow orig st it, (List.length it < fuel)%nat -> str_loop fuel allow orig st it <> LErr Fuel.
Proof.
  induction fuel as [|fuel IH]; intros allow orig st it F; [lia|].
  destruct it as [|c it]; [discriminate|]. cbn [str_loop]. cbn [List.length] in F.
  destruct (c =? 34); [discriminate|]. destruct (c =? 92).
  - destruct it as [|x it]; [discriminate|]. cbn [List.length] in F.
    repeat match goal with |- context [if x =? ?k then _ else _] => destruct (x =? k); [try (apply IH; lia)|] end.
    + destruct (must_eat_char 123 it) as [it1|e] eqn:M1; cbn [lbind].
      * apply must_eat_ok in M1. subst it. cbn [List.length] in F.
        destruct (hexnum it1) as [[n it2]|e] eqn:HN; cbn [lbind].
        -- apply hexnum_rest in HN. destruct (is_scalar n); [|discriminate].
           destruct (must_eat_char 125 it2) as [it3|e] eqn:M2; cbn [lbind].
           ++ apply must_eat_ok in M2. subst it2. cbn [List.length] in HN. apply IH. lia.
           ++ unfold must_eat_char, must_char in M2. destruct it2; cbn [lbind] in M2; [injection M2 as <-; discriminate|].
              destruct (125 =? z); [discriminate|injection M2 as <-; discriminate].
        -- unfold hexnum, hexdigit, must_char in HN. destruct it1; cbn [lbind] in HN; [injection HN as <-; discriminate|].
           destruct (is_hex z); cbn [lbind] in HN; [|injection HN as <-; discriminate].
           assert (forall s n l e, hexnum_loop n l s = LErr e -> e <> Fuel) as Q.
           { clear. induction s as [|c s IHs]; intros n l e; cbn [hexnum_loop].
             - destruct l; [intros H; injection H as <-; discriminate|discriminate].
             - destruct (c =? 95); [apply IHs|]. destruct (negb (is_hex c)).
               + destruct l; [intros H; injection H as <-; discriminate|discriminate].
               + destruct (u32_checked (n * 16)); [|intros H; injection H as <-; discriminate].
                 destruct (u32_checked _); [apply IHs|intros H; injection H as <-; discriminate]. }
           specialize (Q _ _ _ _ HN). congruence.
      * unfold must_eat_char, must_char in M1. destruct it; cbn [lbind] in M1; [injection M1 as <-; discriminate|].
        destruct (123 =? z); [discriminate|injection M1 as <-; discriminate].
    + destruct (is_hex x); [|discriminate]. destruct (hexdigit it) as [[c2 it2]|e] eqn:HD; cbn [lbind].
      * apply hexdigit_ok in HD. destruct HD as (d & -> & _). cbn [List.length] in F. apply IH. lia.
      * unfold hexdigit, must_char in HD. destruct it; cbn [lbind] in HD; [injection HD as <-; discriminate|].
        destruct (is_hex z); [discriminate|injection HD as <-; discriminate].
  - destruct ((c <? 32) || (c =? 127)); [discriminate|]. destruct (negb allow && confusing c); [discriminate|]. apply IH. lia.
Qed.
