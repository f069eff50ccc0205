(** Lexing what the writer writes. *)
From Coq Require Import ZArith Lia List Bool String Arith.
From Verif Require Import Base.Prelude Names.Kebab Names.KebabProofs Text.Lexer Text.Numbers Text.Print Text.Spec Text.IntProofs Text.PrintProofs Text.HexFloat Wave.Model Wave.Spec.
Import ListNotations.
Open Scope Z_scope.

(** What may follow a label or a number; what follows a value. *)
Definition stop (r : str) : Prop := match r with [] => True | c :: _ => lc c = false /\ uc c = false /\ dg c = false /\ c <> 45 /\ c <> 46 end.
Definition delim (r : str) : Prop := r = [] \/ exists c t, r = c :: t /\ In c [44; 41; 93; 125].
Lemma delim_stop r : delim r -> stop r.
Proof. intros [->|(c & t & -> & H)]; [exact I|]. cbn [In] in H. unfold stop. decompose [or] H; subst; try contradiction; repeat split; try reflexivity; discriminate. Qed.
Lemma in_range_iff lo hi c : in_range lo hi c = true <-> lo <= c <= hi.
Proof. unfold in_range. rewrite andb_true_iff, !Z.leb_le. lia. Qed.
Lemma in_range_false lo hi c : in_range lo hi c = false <-> c < lo \/ hi < c.
Proof. unfold in_range. rewrite andb_false_iff, !Z.leb_gt. lia. Qed.

Lemma take_while_app p a r : Forall (fun c => p c = true) a -> (match r with [] => True | c :: _ => p c = false end) -> take_while p (a ++ r) = (a, r).
Proof.
  intros F R. induction F as [|c a P F IH]; cbn [app].
  - destruct r as [|c r]; [reflexivity|]. cbn [take_while]. now rewrite R.
  - cbn [take_while]. now rewrite P, IH.
Qed.
Lemma take_while_len p s : (List.length (fst (take_while p s)) + List.length (snd (take_while p s)) = List.length s)%nat.
Proof. induction s as [|c s IH]; [reflexivity|]. cbn [take_while]. destruct (p c); [|reflexivity]. destruct (take_while p s) as [a b]. cbn in *. lia. Qed.

(** Labels. *)
Definition stop_word (r : str) : Prop := match r with [] => True | c :: _ => lc c = false /\ uc c = false /\ dg c = false end.
Lemma lex_word_app w r : fragment w -> stop_word r -> lex_word (w ++ r) = (w, r).
Proof.
  intros (NE & [F|F]) R; unfold lex_word.
  - assert (take_while lower_digit (w ++ r) = (w, r)) as ->.
    { apply take_while_app; [eapply Forall_impl; [|exact F]; intros c; unfold lower_digit; now rewrite orb_comm|]. destruct r as [|c r]; [exact I|]. destruct R as (A & B & C). unfold lower_digit. now rewrite A, C. }
    destruct (take_while upper_digit (w ++ r)) as [b rb] eqn:E.
    assert (Nat.ltb (List.length w) (List.length b) = false) as ->; [|reflexivity].
    apply Nat.ltb_ge. clear NE. revert b E. induction F as [|c w P F IH]; intros b E; cbn [app] in E.
    + destruct r as [|c r]; cbn [take_while] in E; [injection E as <- <-; auto|]. destruct R as (A & B & C). unfold upper_digit in E. rewrite B, C in E. injection E as <- <-. auto.
    + cbn [take_while] in E. destruct (upper_digit c); [|injection E as <- <-; cbn; lia].
      destruct (take_while upper_digit (w ++ r)) as [b' rb'] eqn:E'. injection E as <- <-. specialize (IH b' ltac:(congruence)). cbn. lia.
  - assert (take_while upper_digit (w ++ r) = (w, r)) as T.
    { apply take_while_app; [eapply Forall_impl; [|exact F]; intros c; unfold upper_digit; now rewrite orb_comm|]. destruct r as [|c r]; [exact I|]. destruct R as (A & B & C). unfold upper_digit. now rewrite B, C. }
    rewrite T. destruct (take_while lower_digit (w ++ r)) as [a ra] eqn:E.
    assert (List.length a <= List.length w)%nat as L.
    { clear NE T. revert a E. induction F as [|c w P F IH]; intros a E; cbn [app] in E.
      + destruct r as [|c r]; cbn [take_while] in E; [injection E as <- <-; auto|]. destruct R as (A & B & C). unfold lower_digit in E. rewrite A, C in E. injection E as <- <-. auto.
      + cbn [take_while] in E. destruct (lower_digit c); [|injection E as <- <-; cbn; lia].
        destruct (take_while lower_digit (w ++ r)) as [b' rb'] eqn:E'. injection E as <- <-. specialize (IH b' ltac:(congruence)). cbn. lia. }
    destruct (Nat.ltb_spec (List.length a) (List.length w)) as [L'|L']; [reflexivity|].
    (* equal lengths: the same prefix *)
    assert (forall s x y, take_while lower_digit s = (x, y) -> x ++ y = s) as TW.
    { intros s. induction s as [|c s IH]; intros x y H; cbn [take_while] in H; [now injection H as <- <-|].
      destruct (lower_digit c); [|now injection H as <- <-]. destruct (take_while lower_digit s) as [x' y']. injection H as <- <-. cbn. f_equal. now apply IH. }
    apply TW in E. clear - E L L'. assert (List.length a = List.length w) as Q by lia. clear L L'. revert w E Q. induction a as [|c a IH]; intros [|d w] E Q; cbn in *; try discriminate; [now subst|].
    injection E as -> E. injection Q as Q. specialize (IH w E Q). congruence.
Qed.
Lemma lex_words_app : forall ws fuel r, Forall fragment ws -> stop r ->
  (List.length (flat_map (cons 45%Z) ws) <= fuel)%nat -> lex_words fuel (flat_map (cons 45%Z) ws ++ r) = (flat_map (cons 45%Z) ws, r).
Proof.
  induction ws as [|w ws IH]; intros fuel r F R L; cbn [flat_map].
  - cbn [app]. destruct fuel as [|fuel]; destruct r as [|c r]; try reflexivity. cbn [lex_words]. destruct R as (_ & _ & _ & N & _). apply Z.eqb_neq in N. now rewrite N.
  - inversion_clear F as [|? ? Fw F']. cbn [flat_map] in L. rewrite app_length in L. cbn [List.length] in L. rewrite <- app_assoc. cbn [app].
    destruct fuel as [|fuel]; [lia|]. cbn [lex_words]. change (45 =? 45) with true. cbv iota.
    rewrite lex_word_app; [|exact Fw|].
    + destruct w as [|c w]; [now destruct (proj1 Fw)|]. rewrite IH; [reflexivity|exact F'|exact R|]. lia.
    + destruct ws as [|v ws]; cbn [flat_map app]; [destruct r as [|c r]; [exact I|]; destruct R as (A & B & C & _); now split|]. repeat split; reflexivity.
Qed.
Lemma join_flat : forall ws w, join w ws = w ++ flat_map (cons 45%Z) ws.
Proof. induction ws as [|v ws IH]; intros w; cbn [join flat_map]; [now rewrite app_nil_r|]. now rewrite IH. Qed.
Lemma lex_name_app s r : label s -> stop r -> lex_name (s ++ r) = Some (s, r).
Proof.
  intros (w & ws & -> & ((NE & F) & D) & Fs) R. rewrite join_flat. destruct w as [|c w]; [contradiction|]. cbn [app lex_name].
  assert (stop_word (flat_map (cons 45%Z) ws ++ r)) as S.
  { destruct ws as [|v ws]; cbn [flat_map app]; [destruct r as [|x r]; [exact I|]; destruct R as (A & B & C & _); now split|]. repeat split; reflexivity. }
  assert (forall s' : str, (List.length (flat_map (cons 45%Z) ws) <= List.length (flat_map (cons 45%Z) ws ++ s'))%nat) as Lf by (intros; rewrite app_length; lia).
  destruct F as [F|F].
  - assert (lc c = true) as Lc by (inversion F as [|? ? P]; subst; rewrite D in P; exact P). rewrite Lc.
    change (c :: (w ++ flat_map (cons 45%Z) ws) ++ r) with ((c :: (w ++ flat_map (cons 45%Z) ws)) ++ r). rewrite app_comm_cons, <- app_assoc.
    rewrite (take_while_app lower_digit (c :: w)).
    + rewrite lex_words_app; [reflexivity|assumption|assumption|apply Lf].
    + eapply Forall_impl; [|exact F]. intros x. unfold lower_digit. now rewrite orb_comm.
    + destruct (flat_map (cons 45%Z) ws ++ r) as [|x t]; [exact I|]. destruct S as (A & B & C). unfold lower_digit. now rewrite A, C.
  - assert (uc c = true) as Uc by (inversion F as [|? ? P]; subst; rewrite D in P; exact P). rewrite Uc. destruct (class c) as (_ & K & _). destruct (K Uc) as (-> & _).
    change (c :: (w ++ flat_map (cons 45%Z) ws) ++ r) with ((c :: (w ++ flat_map (cons 45%Z) ws)) ++ r). rewrite app_comm_cons, <- app_assoc.
    rewrite (take_while_app upper_digit (c :: w)).
    + rewrite lex_words_app; [reflexivity|assumption|assumption|apply Lf].
    + eapply Forall_impl; [|exact F]. intros x. unfold upper_digit. now rewrite orb_comm.
    + destruct (flat_map (cons 45%Z) ws ++ r) as [|x t]; [exact I|]. destruct S as (A & B & C). unfold upper_digit. now rewrite B, C.
Qed.
Lemma label_first s : label s -> exists c t, s = c :: t /\ (lc c = true \/ uc c = true).
Proof.
  intros (w & ws & -> & ((NE & F) & D) & Fs). rewrite join_flat. destruct w as [|c w]; [contradiction|]. exists c, (w ++ flat_map (cons 45%Z) ws). split; [reflexivity|].
  destruct F as [F|F]; inversion F as [|? ? P]; subst; rewrite D in P; auto.
Qed.

(** The dispatch on the first character. *)
Lemma letter_range c : lc c = true \/ uc c = true -> 97 <= c <= 122 \/ 65 <= c <= 90.
Proof. unfold lc, uc. rewrite !in_range_iff. lia. Qed.
Ltac neqs := repeat match goal with |- context [?a =? ?b] => first
  [ assert ((a =? b) = false) as -> by (apply Z.eqb_neq; lia) | assert ((a =? b) = true) as -> by (apply Z.eqb_eq; lia) ] end.
Lemma skip_plain c t : c <> 32 -> c <> 9 -> c <> 10 -> c <> 13 -> c <> 47 -> skip false (c :: t) = c :: t.
Proof. intros. cbn [skip]. unfold is_ws. now neqs. Qed.
Lemma lex_space s : lex (32 :: s) = lex s.
Proof. reflexivity. Qed.
Lemma lex_label_app s r : label s -> stop r -> lex (s ++ r) = Tok LabelOrKeyword s r.
Proof.
  intros L R. destruct (label_first s L) as (c & t & -> & C). pose proof (letter_range c C) as Rg. unfold lex. cbn [app]. rewrite skip_plain by lia.
  assert (dg c = false) as -> by (unfold dg; apply in_range_false; lia). neqs. cbn [orb].
  assert (lc c || uc c = true) as -> by (destruct C as [-> | ->]; [reflexivity|apply orb_true_r]). cbn [orb].
  unfold lex_label. neqs. change (c :: t ++ r) with ((c :: t) ++ r). now rewrite lex_name_app.
Qed.
Lemma lex_percent_app s r : label s -> stop r -> lex (37 :: s ++ r) = Tok LabelOrKeyword (37 :: s) r.
Proof. intros L R. unfold lex. rewrite skip_plain by lia. cbn [Z.eqb orb dg lc uc in_range]. change (37 =? 123) with false. cbv - [lex_name app]. now rewrite lex_name_app. Qed.

(** Punctuation. *)
Lemma lex_delim_ r : delim r -> match lex r with Tok t _ _ => t = Comma \/ t = ParenClose \/ t = BracketClose \/ t = BraceClose | End => True | Bad => False end.
Proof. intros [->|(c & t & -> & H)]; [exact I|]. cbn [In] in H. decompose [or] H; subst; try contradiction; unfold lex; rewrite skip_plain by lia; cbn; tauto. Qed.

(** Numbers. *)
Lemma lex_digits_app d r : digits d -> (match r with [] => True | c :: _ => dg c = false end) -> lex_digits (d ++ r) = Some (d, r).
Proof. intros (NE & F) R. unfold lex_digits. rewrite take_while_app by assumption. destruct d; [contradiction|reflexivity]. Qed.
Lemma number_stop r : stop r -> match r with [] => True | c :: _ => dg c = false end.
Proof. destruct r as [|c r]; [trivial|]. intros (_ & _ & D & _). exact D. Qed.
Lemma letter_false c : lc c = false -> uc c = false -> c <> 101 /\ c <> 69.
Proof. unfold lc, uc. rewrite !in_range_false. lia. Qed.
Definition exp_text (e : str) : Prop := e = [] \/ exists c g d, e = c :: g ++ d /\ (c = 101 \/ c = 69) /\ (g = [] \/ g = lit "-" \/ g = lit "+") /\ digits d.
Definition frac_text (f : str) : Prop := f = [] \/ exists d, f = 46 :: d /\ digits d.
Lemma lex_exp_app e r : exp_text e -> stop r -> lex_exp (e ++ r) = (e, r).
Proof.
  intros [->|(c & g & d & -> & C & G & D)] R; cbn [app].
  - destruct r as [|c r]; [reflexivity|]. destruct R as (A & B & _). destruct (letter_false c A B). unfold lex_exp. now neqs.
  - unfold lex_exp. assert ((c =? 101) || (c =? 69) = true) as -> by (destruct C as [-> | ->]; reflexivity).
    assert (lex_sign ((g ++ d) ++ r) = (g, d ++ r)) as ->.
    { rewrite <- app_assoc. destruct G as [->|[->| ->]]; try reflexivity. destruct d as [|x d]; [now destruct (proj1 D)|]. cbn [app lex_sign].
      destruct D as (_ & F). inversion F as [|? ? P]; subst. unfold dg in P. apply in_range_iff in P. now neqs. }
    rewrite lex_digits_app; [reflexivity|exact D|now apply number_stop].
Qed.
Lemma exp_head e r : exp_text e -> stop r -> match e ++ r with [] => True | c :: _ => dg c = false /\ c <> 46 end.
Proof. intros [->|(c & g & d & -> & C & _)] R; cbn [app]; [destruct r as [|c r]; [exact I|]; destruct R as (_ & _ & A & _ & B); now split|]. destruct C as [-> | ->]; split; (reflexivity || discriminate). Qed.
Lemma lex_frac_app f e r : frac_text f -> exp_text e -> stop r -> lex_frac (f ++ e ++ r) = (f, e ++ r).
Proof.
  intros [->|(d & -> & D)] E R; cbn [app].
  - pose proof (exp_head e r E R) as H. destruct (e ++ r) as [|c t]; [reflexivity|]. destruct H as (_ & N). unfold lex_frac. now neqs.
  - unfold lex_frac. change (46 =? 46) with true. cbv iota. rewrite lex_digits_app; [reflexivity|exact D|]. pose proof (exp_head e r E R) as H. destruct (e ++ r); [exact I|apply H].
Qed.
Lemma frac_head f e r : frac_text f -> exp_text e -> stop r -> match f ++ e ++ r with [] => True | c :: _ => dg c = false end.
Proof. intros [->|(d & -> & D)] E R; cbn [app]; [|reflexivity]. pose proof (exp_head e r E R) as H. destruct (e ++ r); [exact I|apply H]. Qed.
Lemma lex_unsigned_app i f e r : (i = lit "0" \/ digits i /\ forall t, i <> 48 :: t) -> frac_text f -> exp_text e -> stop r ->
  lex_unsigned (i ++ f ++ e ++ r) = Some (i ++ f ++ e, r).
Proof.
  intros Hi F E R. unfold lex_unsigned.
  assert (lex_int (i ++ f ++ e ++ r) = Some (i, f ++ e ++ r)) as ->.
  { destruct Hi as [->|(D & N)]; [reflexivity|]. destruct i as [|c i]; [now destruct (proj1 D)|]. cbn [app lex_int].
    assert (c <> 48) by (intros ->; now apply (N i)). neqs. change (c :: i ++ f ++ e ++ r) with ((c :: i) ++ f ++ e ++ r). apply lex_digits_app; [exact D|now apply frac_head]. }
  rewrite lex_frac_app by assumption. rewrite lex_exp_app by assumption. reflexivity.
Qed.
Lemma lex_number_app s r : number_text s -> s <> lit "inf" -> stop r -> lex (s ++ r) = Tok Number s r.
Proof.
  intros [->|[->|(m & i & f & e & -> & Hm & Hi & F & E)]] NI R; [congruence|reflexivity|].
  pose proof (lex_unsigned_app i f e r Hi F E R) as LU. rewrite <- !app_assoc.
  assert (exists c t, i = c :: t /\ dg c = true) as (c & t & -> & D).
  { destruct Hi as [->|((NE & Fi) & _)]; [exists 48, []; now split|]. destruct i as [|c t]; [contradiction|]. inversion Fi; subst. eauto. }
  unfold dg in D. pose proof (proj1 (in_range_iff _ _ _) D) as Rg.
  unfold lex. destruct Hm as [-> | ->].
  - cbn [app] in LU |- *. rewrite skip_plain by lia. neqs. unfold dg. rewrite D. cbn [orb]. unfold lex_number. neqs. rewrite LU. reflexivity.
  - change (lit "-") with [45]. cbn [app] in LU |- *. rewrite skip_plain by lia. neqs. change (dg 45 || true) with true. cbv iota. unfold lex_number. change (45 =? 45) with true. cbv iota. rewrite LU. reflexivity.
Qed.
Lemma fmt10_text n : 0 <= n -> (fmt_uint 10 n = lit "0" \/ digits (fmt_uint 10 n) /\ forall t, fmt_uint 10 n <> 48 :: t).
Proof.
  intros N. assert (exists c t, fmt_uint 10 n = c :: t /\ Forall (fun c => dg c = true) (c :: t) /\ (c = 48 -> n = 0 /\ t = [])) as (c & t & E & F & Z0).
  { apply (fmt_ind 10 ltac:(lia) (fun n s => exists c t, s = c :: t /\ Forall (fun c => dg c = true) (c :: t) /\ (c = 48 -> n = 0 /\ t = []))); [| |exact N].
    - intros m M. exists (digit_char m), []. split; [reflexivity|]. unfold digit_char. assert (m <? 10 = true) as -> by (apply Z.ltb_lt; lia). split; [constructor; [|constructor]; apply in_range_iff; lia|]. intros H. split; [lia|reflexivity].
    - intros m s M (c & t & -> & F & Z0). exists c, (t ++ [digit_char (m mod 10)]). split; [reflexivity|].
      pose proof (Z.mod_pos_bound m 10 ltac:(lia)). split.
      + rewrite app_comm_cons. apply Forall_app. split; [exact F|]. constructor; [|constructor]. unfold digit_char. assert (m mod 10 <? 10 = true) as -> by (apply Z.ltb_lt; lia). apply in_range_iff. lia.
      + intros H0. destruct (Z0 H0) as (Q & _). exfalso. assert (1 <= m / 10) by (apply Z.div_le_lower_bound; lia). lia. }
  rewrite E. destruct (Z.eq_dec c 48) as [->|Nc].
  - left. destruct (Z0 eq_refl) as (_ & ->). reflexivity.
  - right. split; [split; [discriminate|exact F]|]. intros t' [= -> _]. congruence.
Qed.
Lemma fmt_int_text z : number_text (fmt_int z) /\ fmt_int z <> lit "inf".
Proof.
  assert (forall n, 0 <= n -> exists c t, fmt_uint 10 n = c :: t /\ dg c = true) as H.
  { intros n N. destruct (fmt10_text n N) as [->|((NE & F) & _)]; [exists 48, []; now split|]. destruct (fmt_uint 10 n) as [|c t]; [contradiction|]. inversion F; subst. eauto. }
  unfold fmt_int. destruct (Z.ltb_spec z 0) as [L|L].
  - split; [|discriminate]. right. right. exists (lit "-"), (fmt_uint 10 (- z)), [], []. rewrite !app_nil_r. split; [reflexivity|]. split; [now right|]. split; [apply fmt10_text; lia|]. split; now left.
  - split; [right; right; exists [], (fmt_uint 10 z), [], []; rewrite !app_nil_r; split; [reflexivity|]; split; [now left|]; split; [apply fmt10_text; lia|]; split; now left|].
    destruct (H z ltac:(lia)) as (c & t & -> & D). intros [= -> _]. discriminate D.
Qed.
(** An integer is read back. *)
Lemma fmt10_digits n : 0 <= n -> Forall (is_digit 10) (fmt_uint 10 n) /\ fmt_uint 10 n <> [].
Proof.
  intros N. split.
  - apply (fmt_ind 10 ltac:(lia) (fun _ s => Forall (is_digit 10) s)); [| |exact N].
    + intros m M. constructor; [|constructor]. exists m. split; [apply digit_char_value; lia|lia].
    + intros m s M F. apply Forall_app. split; [exact F|]. pose proof (Z.mod_pos_bound m 10 ltac:(lia)). constructor; [|constructor]. exists (m mod 10). split; [apply digit_char_value; lia|lia].
  - destruct (fmt10_text n N) as [->|((NE & _) & _)]; [discriminate|exact NE].
Qed.
Lemma int_back (signed : bool) w z : width w -> (if signed then in_s w z else in_u w z) ->
  (if signed then i_from w (fmt_int z) 10 else u_from w (fmt_int z) 10) = Some z.
Proof.
  intros Hw R. assert (1 <= 2 ^ (w - 1) /\ 2 ^ w = 2 * 2 ^ (w - 1)) as (P & P2).
  { destruct Hw as [->|[->|[->| ->]]]; (split; [vm_compute; discriminate|reflexivity]). }
  assert (forall n, 0 <= n -> accum 10 0 (fmt_uint 10 n) = n) as A by (intros n N; apply (fmt_magnitude 10 ltac:(lia) n N)).
  unfold i_from, u_from, fmt_int. destruct signed.
  - unfold in_s in R. destruct (Z.ltb_spec z 0) as [L|L].
    + destruct (fmt10_digits (- z) ltac:(lia)) as (F & NE). pose proof (radix_text (- 2 ^ (w - 1)) (2 ^ (w - 1) - 1) 10 IMinus _ (or_intror eq_refl) ltac:(lia) F NE) as RT.
      cbn [minus_text app] in RT. change (lit "-" ++ fmt_uint 10 (- z)) with (45 :: fmt_uint 10 (- z)) in RT. rewrite RT, A by lia.
      assert ((- 2 ^ (w - 1) <? 0) && (- 2 ^ (w - 1) <=? - - z) = true) as -> by (rewrite andb_true_iff, Z.ltb_lt, Z.leb_le; lia). f_equal. lia.
    + destruct (fmt10_digits z ltac:(lia)) as (F & NE). pose proof (radix_text (- 2 ^ (w - 1)) (2 ^ (w - 1) - 1) 10 INone _ (or_intror eq_refl) ltac:(lia) F NE) as RT.
      cbn [minus_text app] in RT. rewrite RT, A by lia. assert (z <=? 2 ^ (w - 1) - 1 = true) as -> by (apply Z.leb_le; lia). reflexivity.
  - unfold in_u in R. destruct (Z.ltb_spec z 0) as [L|L]; [lia|].
    destruct (fmt10_digits z ltac:(lia)) as (F & NE). pose proof (radix_text 0 (2 ^ w - 1) 10 INone _ (or_intror eq_refl) ltac:(lia) F NE) as RT.
    cbn [minus_text app] in RT. rewrite RT, A by lia. assert (z <=? 2 ^ w - 1 = true) as -> by (apply Z.leb_le; lia). reflexivity.
Qed.

(** Characters. *)
Lemma fmt16_len : forall k n, 0 <= n < 16 ^ Z.of_nat (S k) -> (List.length (fmt_uint 16 n) <= S k)%nat.
Proof.
  induction k as [|k IH]; intros n N.
  - change (16 ^ Z.of_nat 1) with 16 in N. rewrite fmt_small by lia. cbn. lia.
  - destruct (Z_lt_le_dec n 16) as [L|L]; [rewrite fmt_small by lia; cbn; lia|]. rewrite fmt_step by lia. rewrite app_length. cbn [List.length].
    assert (0 <= n / 16 < 16 ^ Z.of_nat (S k)).
    { split; [apply Z.div_pos; lia|]. apply Z.div_lt_upper_bound; [lia|]. rewrite <- Z.pow_succ_r by lia. replace (Z.succ (Z.of_nat (S k))) with (Z.of_nat (S (S k))) by lia. lia. }
    specialize (IH _ H). lia.
Qed.
Lemma fmt16_ne n : 0 <= n -> fmt_uint 16 n <> [].
Proof. intros N. destruct (Z_lt_le_dec n 16); [rewrite fmt_small by lia; discriminate|]. rewrite fmt_step by lia. intros H. now apply app_eq_nil in H. Qed.
Lemma to_hex_range c : is_hex c = true -> 0 <= to_hex c < 16.
Proof. unfold is_hex, to_hex. rewrite !orb_true_iff, !in_range_iff. intros H. unfold in_range. repeat match goal with |- context [?a <=? ?b] => destruct (Z.leb_spec a b) end; cbn [andb]; lia. Qed.
Lemma lor16 v d : 0 <= v -> 0 <= d < 16 -> Z.lor (Z.shiftl v 4) d = v * 16 + d.
Proof.
  intros V D. assert (Z.land (Z.shiftl v 4) d = 0) as L.
  { apply Z.bits_inj'. intros k K. rewrite Z.land_spec, Z.bits_0, Z.shiftl_spec by lia. destruct (Z_lt_le_dec k 4) as [L|L]; [rewrite Z.testbit_neg_r by lia; reflexivity|].
    destruct (Z.eq_dec d 0) as [->|ND]; [rewrite Z.bits_0; apply andb_false_r|].
    rewrite (Z.bits_above_log2 d k); [apply andb_false_r|lia|]. apply Z.lt_le_trans with 4; [apply Z.log2_lt_pow2; lia|exact L]. }
  rewrite <- Z.lxor_lor, <- Z.add_nocarry_lxor by exact L. rewrite Z.shiftl_mul_pow2 by lia. reflexivity.
Qed.
Lemma unescape_hex_app : forall h k v r, Forall (fun c => is_hex c = true) h -> 0 <= v -> (k + List.length h <= 6)%nat -> (1 <= k + List.length h)%nat ->
  unescape_hex k v (h ++ 125 :: r) = option_map (fun v => (v, r)) (from_u32 (fold_left (fun n d => n * 16 + d) (vals h) v)).
Proof.
  induction h as [|c h IH]; intros k v r F V L1 L2.
  - cbn [app unescape_hex]. change (125 =? 125) with true. cbv iota. destruct k; [cbn in L2; lia|]. reflexivity.
  - inversion_clear F as [|? ? Hc F']. cbn [app unescape_hex]. assert (c <> 125) by (intros ->; discriminate Hc). neqs. rewrite Hc. cbn [List.length] in *.
    assert ((6 <=? k)%nat = false) as -> by (apply Nat.leb_gt; lia). pose proof (to_hex_range c Hc). rewrite lor16 by lia. rewrite IH; [reflexivity|exact F'|lia|lia|lia].
Qed.
Section Chars.
Variable grapheme_extended printable : Z -> bool.
Notation write_char := (write_char grapheme_extended printable).
Definition plain (c : Z) : Prop := c <> 92 /\ c <> 34 /\ c <> 39 /\ c <> 10.
Definition escaped (c : Z) (e : str) : Prop :=
  (forall r, lex_escape (92 :: e ++ r) = Some (92 :: e, r)) /\ (forall r, unescape (92 :: e ++ r) = Some (c, r)).
Lemma unicode_escaped c : scalar c -> exists e, escape_unicode c = 92 :: e /\ escaped c e.
Proof.
  intros S. exists (tl (escape_unicode c)). split; [reflexivity|]. unfold escape_unicode. change (lit "\u{") with [92; 117; 123]. change (lit "}") with [125]. cbn [app tl].
  assert (0 <= c) as C0 by (destruct S; lia). assert (c <= 0x10ffff) as C1 by (destruct S; lia).
  pose proof (fmt_chars 16 ltac:(lia) c C0) as F. pose proof (fmt16_len 5 c ltac:(change (16 ^ Z.of_nat 6) with 16777216; lia)) as L. pose proof (fmt16_ne c C0) as NE.
  assert (1 <= List.length (fmt_uint 16 c))%nat as L1 by (destruct (fmt_uint 16 c); [contradiction|cbn; lia]).
  split; intros r; cbn [app].
  - cbn [lex_escape]. change (negb (92 =? 92)) with false. cbv iota. change (existsb (Z.eqb 117) [39; 34; 116; 110; 114; 92]) with false. cbv iota. change (117 =? 117) with true. cbv iota. change (123 =? 123) with true. cbv iota.
    rewrite <- app_assoc. cbn [app]. rewrite (take_while_app is_hex) by (assumption || reflexivity). change (125 =? 125) with true.
    assert (1 <=? zlen (fmt_uint 16 c) = true) as -> by (apply Z.leb_le; unfold zlen; lia). assert (zlen (fmt_uint 16 c) <=? 6 = true) as -> by (apply Z.leb_le; unfold zlen; lia). reflexivity.
  - cbn [unescape]. change (negb (92 =? 92)) with false. cbv iota.
    change (117 =? 92) with false. change (117 =? 39) with false. change (117 =? 34) with false. change (117 =? 116) with false. change (117 =? 110) with false. change (117 =? 114) with false. change (117 =? 117) with true. change (123 =? 123) with true. cbv iota.
    rewrite <- app_assoc. cbn [app]. rewrite unescape_hex_app by (assumption || lia).
    change (fold_left (fun n d => n * 16 + d) (vals (fmt_uint 16 c)) 0) with (val (vals (fmt_uint 16 c))). rewrite <- (vals_magnitude _ F), (fmt_magnitude 16 ltac:(lia) c C0).
    unfold from_u32. assert (c <=? 1114111 = true) as -> by (apply Z.leb_le; lia). assert (in_range 55296 57343 c = false) as -> by (apply in_range_false; destruct S; lia). reflexivity.
Qed.
Lemma write_char_cases c : scalar c -> (write_char c = [c] /\ plain c) \/ exists e, write_char c = 92 :: e /\ escaped c e.
Proof.
  intros S. unfold Model.write_char. destruct (existsb (Z.eqb c) [92; 34; 39; 9; 13; 10]) eqn:E.
  - right. apply existsb_exists in E as (x & Hx & Ex). apply Z.eqb_eq in Ex as <-. exists (tl (escape_default c)). cbn [In] in Hx.
    decompose [or] Hx; try contradiction; subst c; (split; [reflexivity|]); split; intros r; reflexivity.
  - assert (forall x, In x [92; 34; 39; 9; 13; 10] -> c <> x) as N.
    { intros x Hx ->. assert (existsb (Z.eqb x) [92; 34; 39; 9; 13; 10] = true) by (apply existsb_exists; exists x; split; [exact Hx|apply Z.eqb_refl]). congruence. }
    assert (plain c) as P by (repeat split; apply N; cbn [In]; tauto).
    destruct (is_control c) eqn:Ct; [right; now apply unicode_escaped|]. unfold escape_debug.
    assert (c <> 0) by (intros ->; discriminate Ct).
    pose proof (N 9 ltac:(cbn [In]; tauto)). pose proof (N 13 ltac:(cbn [In]; tauto)). destruct P as (P1 & P2 & P3 & P4). neqs. cbn [orb].
    destruct (grapheme_extended c); [right; now apply unicode_escaped|]. destruct (printable c); [left|right; now apply unicode_escaped]. split; [reflexivity|]. repeat split; assumption.
Qed.

(** Strings. *)
Lemma lex_string_app : forall s fuel r, Forall scalar s -> (List.length (flat_map write_char s) < fuel)%nat ->
  lex_string fuel (flat_map write_char s ++ 34 :: r) = Some (flat_map write_char s ++ [34], r).
Proof.
  induction s as [|c s IH]; intros fuel r F L; destruct fuel as [|fuel]; try (cbn in L; lia); [reflexivity|].
  inversion_clear F as [|? ? Sc F']. cbn [flat_map] in L |- *. rewrite app_length in L. rewrite <- app_assoc.
  destruct (write_char_cases c Sc) as [(E & P1 & P2 & P3 & P4)|(e & E & X & _)].
  - rewrite E in *. cbn [app lex_string List.length] in *. neqs. rewrite IH by (assumption || lia). reflexivity.
  - rewrite E in *. cbn [app lex_string List.length] in *. change (92 =? 34) with false. change (92 =? 92) with true. cbv iota. rewrite X, IH by (assumption || lia). cbn [option_map fst snd]. now rewrite <- app_assoc.
Qed.
Lemma string_parts_app : forall s fuel, Forall scalar s -> (List.length (flat_map write_char s) <= fuel)%nat -> string_parts fuel (flat_map write_char s) = Good s.
Proof.
  induction s as [|c s IH]; intros fuel F L; [destruct fuel; reflexivity|]. inversion_clear F as [|? ? Sc F']. cbn [flat_map] in L |- *. rewrite app_length in L.
  destruct (write_char_cases c Sc) as [(E & P1 & P2 & P3 & P4)|(e & E & _ & X)]; rewrite E in *; cbn [app List.length] in *; (destruct fuel as [|fuel]; [lia|]); cbn [string_parts].
  - neqs. rewrite IH by (assumption || lia). reflexivity.
  - change (92 =? 92) with true. cbv iota. rewrite X, IH by (assumption || lia). reflexivity.
Qed.
Lemma inner_one a b s : inner 1 (a :: s ++ [b]) = s.
Proof. unfold inner. cbn [skipn Nat.sub Nat.iter]. apply removelast_last. Qed.
Lemma lex_str s r : Forall scalar s -> delim r -> lex (34 :: (flat_map write_char s ++ [34]) ++ r) = Tok String (34 :: flat_map write_char s ++ [34]) r.
Proof.
  intros F R. rewrite <- app_assoc. cbn [app]. unfold lex. rewrite skip_plain by lia. cbn [dg lc uc in_range]. 
  change (34 =? 123) with false. change (34 =? 125) with false. change (34 =? 40) with false. change (34 =? 41) with false. change (34 =? 91) with false. change (34 =? 93) with false. change (34 =? 58) with false. change (34 =? 44) with false.
  change (dg 34 || (34 =? 45)) with false. change (lc 34 || uc 34 || (34 =? 37)) with false. change (34 =? 39) with false. change (34 =? 34) with true. cbv iota.
  assert (triple (34 :: flat_map write_char s ++ 34 :: r) = None) as ->.
  { destruct s as [|c s]; cbn [flat_map app].
    - destruct R as [->|(c & t & -> & H)]; [reflexivity|]. cbn [In] in H. decompose [or] H; try contradiction; subst c; reflexivity.
    - inversion_clear F as [|? ? Sc F']. destruct (write_char_cases c Sc) as [(-> & P1 & P2 & P3 & P4)|(e & -> & _)]; cbn [app triple].
      + destruct (flat_map write_char s ++ 34 :: r); [reflexivity|]. neqs. rewrite andb_false_r. reflexivity.
      + destruct ((e ++ flat_map write_char s) ++ 34 :: r); reflexivity. }
  rewrite lex_string_app by (assumption || (rewrite app_length; cbn; lia)). reflexivity.
Qed.
Lemma lex_chr c r : scalar c -> lex (39 :: (write_char c ++ [39]) ++ r) = Tok Char (39 :: write_char c ++ [39]) r.
Proof.
  intros S. rewrite <- app_assoc. cbn [app]. unfold lex. rewrite skip_plain by lia.
  change (39 =? 123) with false. change (39 =? 125) with false. change (39 =? 40) with false. change (39 =? 41) with false. change (39 =? 91) with false. change (39 =? 93) with false. change (39 =? 58) with false. change (39 =? 44) with false.
  change (dg 39 || (39 =? 45)) with false. change (lc 39 || uc 39 || (39 =? 37)) with false. change (39 =? 39) with true. cbv iota.
  destruct (write_char_cases c S) as [(-> & P1 & P2 & P3 & P4)|(e & -> & X & _)]; cbn [app lex_char].
  - neqs. cbn [take_while]. neqs. cbn [orb negb]. change (39 =? 92) with false. change (39 =? 39) with true. change (39 =? 10) with false. cbn [orb negb]. reflexivity.
  - change (92 =? 92) with true. cbv iota. rewrite X. reflexivity.
Qed.
Lemma char_back c : scalar c -> as_char (leaf NChar (39 :: write_char c ++ [39])) = Good c.
Proof.
  intros S. unfold as_char, leaf. rewrite inner_one. destruct (write_char_cases c S) as [(-> & P1 & P2 & P3 & P4)|(e & -> & _ & X)]; [now neqs|].
  change (92 =? 92) with true. cbv iota. specialize (X []). rewrite app_nil_r in X. rewrite X. reflexivity.
Qed.
Lemma str_back s : Forall scalar s -> as_str (leaf NString (34 :: flat_map write_char s ++ [34])) = Good s.
Proof. intros F. unfold as_str, leaf. rewrite inner_one. now apply string_parts_app. Qed.
End Chars.
