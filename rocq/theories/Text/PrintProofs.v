(** What is printed is what is read: strings, byte strings, identifiers; the
    tokens of a source are all of it. *)
From Coq Require Import ZArith Lia List Bool String Arith.
From Verif Require Import Base.Prelude Base.Utf8 Names.Kebab Names.Name Names.NameProofs Text.Lexer Text.Spec Text.LexProofs Text.Print.
Import ListNotations.
Open Scope Z_scope.

(** UTF-8. *)
Lemma inr_iff : forall lo hi b, inr lo hi b = true <-> lo <= b <= hi.
Proof. intros. unfold inr. rewrite andb_true_iff, !Z.leb_le. reflexivity. Qed.
Lemma inr_false : forall lo hi b, inr lo hi b = false <-> ~ (lo <= b <= hi).
Proof. intros. rewrite <- inr_iff. destruct (inr lo hi b); split; congruence. Qed.
Lemma scalar_iff : forall c, is_scalar c = true <-> 0 <= c <= 0xd7ff \/ 0xe000 <= c <= 0x10ffff.
Proof. intros. unfold is_scalar. rewrite orb_true_iff, !inr_iff. reflexivity. Qed.
Ltac inrs := repeat match goal with
  | |- context [inr ?a ?b ?x] => first
      [ assert (inr a b x = true) as -> by (apply inr_iff; Z.div_mod_to_equations; lia)
      | assert (inr a b x = false) as -> by (apply inr_false; Z.div_mod_to_equations; lia) ]
  end.
Lemma valid_char : forall c r, is_scalar c = true -> utf8_valid (utf8_encode_char c ++ r) = utf8_valid r.
Proof.
  intros c r S. apply scalar_iff in S. unfold utf8_encode_char.
  destruct (c <? 0x80) eqn:E1; [apply Z.ltb_lt in E1|apply Z.ltb_ge in E1].
  { cbn [app utf8_valid]. inrs. reflexivity. }
  destruct (c <? 0x800) eqn:E2; [apply Z.ltb_lt in E2|apply Z.ltb_ge in E2].
  { cbn [app utf8_valid]. unfold cont. inrs. reflexivity. }
  destruct (c <? 0x10000) eqn:E3; [apply Z.ltb_lt in E3|apply Z.ltb_ge in E3].
  { cbn [app utf8_valid]. unfold cont. inrs.
    destruct (0xe0 + c / 4096 =? 0xe0) eqn:A; [apply Z.eqb_eq in A|apply Z.eqb_neq in A].
    - inrs. reflexivity.
    - destruct (0xe0 + c / 4096 =? 0xed) eqn:B; [apply Z.eqb_eq in B|apply Z.eqb_neq in B]; inrs; reflexivity. }
  cbn [app utf8_valid]. unfold cont. inrs.
  destruct (0xf0 + c / 262144 =? 0xf0) eqn:A; [apply Z.eqb_eq in A|apply Z.eqb_neq in A].
  - inrs. reflexivity.
  - destruct (0xf0 + c / 262144 =? 0xf4) eqn:B; [apply Z.eqb_eq in B|apply Z.eqb_neq in B]; inrs; reflexivity.
Qed.
Lemma valid_encode : forall s, Forall (fun c => is_scalar c = true) s -> utf8_valid (utf8_encode s) = true.
Proof.
  induction s as [|c s IH]; intros F; [reflexivity|]. inversion_clear F. cbn [utf8_encode]. rewrite valid_char by assumption. auto.
Qed.
(** The first character and the rest, read back. *)
Definition head_char (l : list Z) : option (Z * list Z) :=
  match l with
  | [] => None
  | b0 :: t =>
      if b0 <? 0x80 then Some (b0, t)
      else if b0 <? 0xe0 then match t with b1 :: t => Some ((b0 - 0xc0) * 64 + (b1 - 0x80), t) | _ => None end
      else if b0 <? 0xf0 then match t with b1 :: b2 :: t => Some ((b0 - 0xe0) * 4096 + (b1 - 0x80) * 64 + (b2 - 0x80), t) | _ => None end
      else match t with b1 :: b2 :: b3 :: t => Some ((b0 - 0xf0) * 262144 + (b1 - 0x80) * 4096 + (b2 - 0x80) * 64 + (b3 - 0x80), t) | _ => None end
  end.
Lemma head_encode : forall c r, is_scalar c = true -> head_char (utf8_encode_char c ++ r) = Some (c, r).
Proof.
  intros c r S. apply scalar_iff in S. unfold utf8_encode_char.
  destruct (c <? 0x80) eqn:E1.
  { cbn [app head_char]. rewrite E1. reflexivity. }
  apply Z.ltb_ge in E1.
  destruct (c <? 0x800) eqn:E2; [apply Z.ltb_lt in E2|apply Z.ltb_ge in E2].
  { cbn [app head_char]. assert (0xc0 + c / 64 <? 0x80 = false) as -> by (apply Z.ltb_ge; Z.div_mod_to_equations; lia).
    assert (0xc0 + c / 64 <? 0xe0 = true) as -> by (apply Z.ltb_lt; Z.div_mod_to_equations; lia).
    f_equal. f_equal. Z.div_mod_to_equations; lia. }
  destruct (c <? 0x10000) eqn:E3; [apply Z.ltb_lt in E3|apply Z.ltb_ge in E3].
  { cbn [app head_char]. assert (0xe0 + c / 4096 <? 0x80 = false) as -> by (apply Z.ltb_ge; Z.div_mod_to_equations; lia).
    assert (0xe0 + c / 4096 <? 0xe0 = false) as -> by (apply Z.ltb_ge; Z.div_mod_to_equations; lia).
    assert (0xe0 + c / 4096 <? 0xf0 = true) as -> by (apply Z.ltb_lt; Z.div_mod_to_equations; lia).
    f_equal. f_equal. Z.div_mod_to_equations; lia. }
  cbn [app head_char]. assert (0xf0 + c / 262144 <? 0x80 = false) as -> by (apply Z.ltb_ge; Z.div_mod_to_equations; lia).
  assert (0xf0 + c / 262144 <? 0xe0 = false) as -> by (apply Z.ltb_ge; Z.div_mod_to_equations; lia).
  assert (0xf0 + c / 262144 <? 0xf0 = false) as -> by (apply Z.ltb_ge; Z.div_mod_to_equations; lia).
  f_equal. f_equal. Z.div_mod_to_equations; lia.
Qed.
Lemma encode_inj : forall a b, Forall (fun c => is_scalar c = true) a -> Forall (fun c => is_scalar c = true) b ->
  utf8_encode a = utf8_encode b -> a = b.
Proof.
  induction a as [|x a IH]; intros [|y b] FA FB H.
  - reflexivity.
  - inversion_clear FB as [|? ? Y _]. exfalso. pose proof (head_encode y (utf8_encode b) Y) as Q. cbn [utf8_encode] in H. rewrite <- H in Q. discriminate.
  - inversion_clear FA as [|? ? X _]. exfalso. pose proof (head_encode x (utf8_encode a) X) as Q. cbn [utf8_encode] in H. rewrite H in Q. discriminate.
  - inversion_clear FA as [|? ? X FA']. inversion_clear FB as [|? ? Y FB']. cbn [utf8_encode] in H.
    pose proof (head_encode x (utf8_encode a) X) as QX. pose proof (head_encode y (utf8_encode b) Y) as QY.
    rewrite H in QX. rewrite QX in QY. injection QY as -> QR. f_equal. apply IH; assumption.
Qed.

(** Digits of a number. *)
Lemma digit_char_value : forall d, 0 <= d < 16 -> digit_value (digit_char d) = Some d.
Proof.
  intros d H. assert (D : In d [0;1;2;3;4;5;6;7;8;9;10;11;12;13;14;15]) by (cbn [In]; lia).
  cbn [In] in D. repeat destruct D as [<-|D]; try contradiction D; reflexivity.
Qed.
Lemma log2_div : forall b n, 2 <= b -> b <= n -> Z.log2 (n / b) < Z.log2 n.
Proof.
  intros b n B N. assert (0 < n / b) by (apply Z.div_str_pos; lia).
  assert (A : Z.log2 (2 * (n / b)) = Z.succ (Z.log2 (n / b))) by (apply Z.log2_double; lia).
  assert (C : Z.log2 (2 * (n / b)) <= Z.log2 n).
  { apply Z.log2_le_mono. transitivity (b * (n / b)); [nia|]. apply Z.mul_div_le. lia. }
  lia.
Qed.
Lemma dl_acc : forall b f n acc, digits_loop f b n acc = digits_loop f b n [] ++ acc.
Proof.
  intros b. induction f as [|f IH]; intros n acc; [reflexivity|]. cbn [digits_loop]. destruct (n <? b); [reflexivity|].
  rewrite IH. rewrite (IH _ [_]). rewrite <- app_assoc. reflexivity.
Qed.
Lemma dl_fuel : forall b, 2 <= b -> forall f f' n acc, 0 <= n -> Z.log2 n < Z.of_nat f -> Z.log2 n < Z.of_nat f' ->
  digits_loop f b n acc = digits_loop f' b n acc.
Proof.
  intros b B. induction f as [|f IH]; intros f' n acc N F F'; [pose proof (Z.log2_nonneg n); lia|].
  destruct f' as [|f']; [pose proof (Z.log2_nonneg n); lia|]. cbn [digits_loop].
  destruct (n <? b) eqn:E; [reflexivity|]. apply Z.ltb_ge in E. pose proof (log2_div b n B E) as L.
  apply IH; [apply Z.div_pos|..]; lia.
Qed.
Lemma fmt_small : forall b n, n < b -> fmt_uint b n = [digit_char n].
Proof. intros b n H. unfold fmt_uint. cbn [digits_loop]. apply Z.ltb_lt in H. rewrite H. reflexivity. Qed.
Lemma fmt_step : forall b n, 2 <= b -> b <= n -> fmt_uint b n = fmt_uint b (n / b) ++ [digit_char (n mod b)].
Proof.
  intros b n B H. unfold fmt_uint at 1. cbn [digits_loop]. destruct (n <? b) eqn:E; [apply Z.ltb_lt in E; lia|].
  rewrite dl_acc. f_equal. unfold fmt_uint. pose proof (log2_div b n B H). pose proof (Z.log2_nonneg (n / b)).
  apply dl_fuel; [exact B|apply Z.div_pos; lia|..]; lia.
Qed.
Lemma fmt_ind : forall b, 2 <= b -> forall P : Z -> str -> Prop,
  (forall n, 0 <= n < b -> P n [digit_char n]) ->
  (forall n s, b <= n -> P (n / b) s -> P n (s ++ [digit_char (n mod b)])) ->
  forall n, 0 <= n -> P n (fmt_uint b n).
Proof.
  intros b B P H1 H2. apply (Zlt_0_ind (fun n => P n (fmt_uint b n))). intros n IH N.
  destruct (Z_lt_le_dec n b) as [L|L].
  - rewrite fmt_small by exact L. apply H1. lia.
  - rewrite fmt_step by assumption. apply H2; [exact L|]. apply IH. split; [apply Z.div_pos; lia|]. apply Z.div_lt; lia.
Qed.
Lemma fmt_hex : forall n, 0 <= n -> hexnumber (fmt_uint 16 n) n.
Proof.
  apply (fmt_ind 16 ltac:(lia) (fun n s => hexnumber s n)).
  - intros n H. constructor. apply digit_char_value. exact H.
  - intros n s L H. replace n with (n / 16 * 16 + n mod 16) at 2 by (Z.div_mod_to_equations; lia).
    apply H_more; [exact H|]. apply digit_char_value. apply Z.mod_pos_bound. lia.
Qed.
Lemma fmt_number : forall b, 2 <= b <= 16 -> forall n, 0 <= n -> number b (fmt_uint b n).
Proof.
  intros b B. apply (fmt_ind b ltac:(lia) (fun _ s => number b s)).
  - intros n H. constructor. exists n. split; [apply digit_char_value; lia|lia].
  - intros n s L H. apply N_more; [exact H|]. pose proof (Z.mod_pos_bound n b). exists (n mod b). split; [apply digit_char_value; lia|lia].
Qed.
Lemma fmt_magnitude : forall b, 2 <= b <= 16 -> forall n, 0 <= n -> magnitude b (fmt_uint b n) = n.
Proof.
  intros b B. apply (fmt_ind b ltac:(lia) (fun n s => magnitude b s = n)).
  - intros n H. unfold magnitude. cbn [fold_left]. rewrite digit_char_value by lia. lia.
  - intros n s L H. unfold magnitude in *. rewrite fold_left_app, H. cbn [fold_left]. pose proof (Z.mod_pos_bound n b).
    rewrite digit_char_value by lia. rewrite Z.mul_comm. symmetry. apply Z.div_mod. lia.
Qed.
Lemma fmt_chars : forall b, 2 <= b <= 16 -> forall n, 0 <= n -> Forall (fun c => is_hex c = true) (fmt_uint b n).
Proof.
  intros b B. apply (fmt_ind b ltac:(lia) (fun _ s => Forall (fun c => is_hex c = true) s)).
  - intros n H. constructor; [|constructor]. destruct (proj1 (digit_value_hex _ _) (digit_char_value n ltac:(lia))). assumption.
  - intros n s L H. apply Forall_app. split; [exact H|]. constructor; [|constructor]. pose proof (Z.mod_pos_bound n b).
    destruct (proj1 (digit_value_hex _ _) (digit_char_value (n mod b) ltac:(lia))). assumption.
Qed.
Lemma fmt_inj : forall b n m, 2 <= b <= 16 -> 0 <= n -> 0 <= m -> fmt_uint b n = fmt_uint b m -> n = m.
Proof. intros b n m B N M H. rewrite <- (fmt_magnitude b B n N), <- (fmt_magnitude b B m M), H. reflexivity. Qed.
Lemma hex_idchar : forall c, is_hex c = true -> idchar c = true.
Proof.
  intros c H. apply idchar_word. unfold word_char, is_hex in *. rewrite !orb_true_iff, !range_iff in H. lia.
Qed.

(** Strings. *)
Lemma confusing_ascii : forall c, c < 128 -> confusing c = false.
Proof.
  intros c H. unfold confusing. cbn [existsb].
  repeat match goal with |- context [c =? ?k] => assert ((c =? k) = false) as -> by (apply Z.eqb_neq; lia) end. reflexivity.
Qed.
Lemma ascii_plain : forall c, 0 <= c < 128 -> utf8_encode_char c = [c].
Proof. intros c H. unfold utf8_encode_char. assert (c <? 0x80 = true) as -> by (apply Z.ltb_lt; lia). reflexivity. Qed.
Lemma print_char_elem : forall allow c, is_scalar c = true -> elem (plain_ok allow) (print_char c) (utf8_encode_char c).
Proof.
  intros allow c S. apply scalar_iff in S as R. unfold print_char.
  destruct (((0x20 <=? c) && (c <? 0x7f)) && negb (c =? 34) && negb (c =? 92) && (c <? 0xff)) eqn:E.
  - rewrite !andb_true_iff, !negb_true_iff, !Z.leb_le, !Z.ltb_lt, !Z.eqb_neq in E.
    constructor; try lia. right. apply confusing_ascii. lia.
  - apply E_unicode; [apply fmt_hex; lia|lia|exact S].
Qed.
Lemma print_contents : forall allow s, Forall (fun c => is_scalar c = true) s -> contents (plain_ok allow) (print_str_contents s) (utf8_encode s).
Proof.
  intros allow s F. induction F as [|c s S F IH]; [constructor|]. unfold print_str_contents in *. cbn [flat_map utf8_encode].
  constructor; [apply print_char_elem; exact S|exact IH].
Qed.
Lemma print_byte_elem : forall allow b, is_byte b -> elem (plain_ok allow) (print_byte b) [b].
Proof.
  intros allow b S. unfold is_byte in S. unfold print_byte.
  destruct ((0x20 <=? b) && (b <? 0x7f) && negb (b =? 34) && negb (b =? 92)) eqn:E.
  - rewrite !andb_true_iff, !negb_true_iff, !Z.leb_le, !Z.ltb_lt, !Z.eqb_neq in E.
    rewrite <- (ascii_plain b) at 2 by lia. constructor; try lia. right. apply confusing_ascii. lia.
  - unfold fmt_02x. replace [b] with [b / 16 * 16 + b mod 16] by (f_equal; Z.div_mod_to_equations; lia).
    apply E_byte; apply digit_char_value; Z.div_mod_to_equations; lia.
Qed.
Lemma print_bytes_contents : forall allow bs, bytes_ok bs -> contents (plain_ok allow) (flat_map print_byte bs) bs.
Proof.
  intros allow s F. induction F as [|c s S F IH]; [constructor|]. cbn [flat_map].
  change (c :: s) with ([c] ++ s). constructor; [apply print_byte_elem; exact S|exact IH].
Qed.
(** A quoted string alone is a string token. *)
Lemma reserved_string : forall allow fuel i n t b s, contents (plain_ok allow) t b ->
  reserved_loop (S fuel) allow i n (34 :: t ++ 34 :: s) = reserved_loop fuel allow i (S n) s.
Proof.
  intros allow fuel i n t b s C. cbn [reserved_loop]. rewrite quote_not_idchar. change (34 =? 34) with true. cbv iota.
  rewrite (parse_str_complete allow t b s C). reflexivity.
Qed.
Lemma string_token : forall allow t b rest, contents (plain_ok allow) t b -> delimited rest ->
  parse_token allow (34 :: t ++ 34 :: rest) = LOk (Some (TString, 34 :: t ++ [34], rest)).
Proof.
  intros allow t b rest C D. unfold parse_token. change (34 =? 40) with false. change (34 =? 41) with false.
  change (is_ws 34) with false. change (34 =? 34) with true. rewrite quote_not_idchar. cbn [orb]. unfold parse_reserved.
  assert (E : 34 :: t ++ 34 :: rest = (34 :: t ++ [34]) ++ rest) by (cbn [app]; rewrite <- app_assoc; reflexivity).
  rewrite (reserved_string allow _ 0 0 t b rest C).
  cbn [List.length]. rewrite app_length. cbn [List.length].
  replace (List.length t + S (List.length rest))%nat with (S (List.length t + List.length rest)) by lia.
  rewrite reserved_stop by exact D. cbn [lbind]. rewrite E, eaten_app. reflexivity.
Qed.
Lemma token_string_contents : forall t b, contents (plain_ok true) t b -> token_string (34 :: t ++ [34]) = LOk b.
Proof. intros t b C. unfold token_string. rewrite (parse_str_complete true t b [] C). reflexivity. Qed.

(** Identifiers. *)
Lemma id_string_token : forall allow t b rest, contents (plain_ok allow) t b -> delimited rest ->
  parse_token allow (36 :: 34 :: t ++ 34 :: rest) = LOk (Some (TId, 36 :: 34 :: t ++ [34], rest)).
Proof.
  intros allow t b rest C D. unfold parse_token. change (36 =? 40) with false. change (36 =? 41) with false.
  change (is_ws 36) with false. change (idchar 36) with true. cbn [orb]. unfold parse_reserved.
  assert (E : 36 :: 34 :: t ++ 34 :: rest = (36 :: 34 :: t ++ [34]) ++ rest) by (cbn [app]; rewrite <- app_assoc; reflexivity).
  assert (R : reserved_loop (S (List.length (36 :: 34 :: t ++ 34 :: rest))) allow 0 0 (36 :: 34 :: t ++ 34 :: rest) = LOk (1%nat, 1%nat, rest)).
  { cbn [List.length]. rewrite app_length. cbn [List.length].
    replace (S (S (S (List.length t + S (List.length rest))))) with (1 + S (S (S (List.length t + List.length rest))))%nat by lia.
    etransitivity; [apply (reserved_word [36] _ allow 0 0 (34 :: t ++ 34 :: rest)); constructor; [reflexivity|constructor]|].
    rewrite (reserved_string allow _ _ 0 t b rest C). apply reserved_stop. exact D. }
  rewrite R. cbn [lbind]. rewrite E, eaten_app. cbn [starts]. change (36 =? 36) with true. reflexivity.
Qed.
Lemma dollar_not_number : forall s, classify_number (36 :: s) = None.
Proof. reflexivity. Qed.
Lemma dollar_token : forall allow s rest, Forall (fun c => idchar c = true) s -> delimited rest ->
  parse_token allow (36 :: s ++ rest) = LOk (Some (TId, 36 :: s, rest)).
Proof.
  intros allow s rest F D. unfold parse_token. change (36 =? 40) with false. change (36 =? 41) with false.
  change (is_ws 36) with false. change (idchar 36) with true. cbn [orb].
  change (36 :: s ++ rest) with ((36 :: s) ++ rest). rewrite word_token; [|discriminate|constructor; [reflexivity|exact F]|exact D].
  cbn [lbind]. rewrite dollar_not_number, eaten_app. reflexivity.
Qed.
(** The identifier a naming stands for. *)
Definition ident (n : naming) : str :=
  match fst n with SyntheticPrefix p => p ++ 32 :: snd n | _ => snd n end.
Definition ascii_plain_char (c : Z) : Prop := 32 <= c < 127 /\ c <> 34 /\ c <> 92.
Lemma plain_contents : forall allow p, Forall ascii_plain_char p -> contents (plain_ok allow) p p.
Proof.
  intros allow p F. induction F as [|c p H F IH]; [constructor|]. destruct H as (A & B & C).
  change (c :: p) with ([c] ++ p) at 1. change (c :: p) with ([c] ++ p). constructor; [|exact IH].
  rewrite <- (ascii_plain c) at 2 by lia. constructor; try lia. right. apply confusing_ascii. lia.
Qed.
Lemma contents_app : forall P a x b y, contents P a x -> contents P b y -> contents P (a ++ b) (x ++ y).
Proof.
  intros P a x b y H. induction H as [|t c ts cs E H IH]; intros HB; [exact HB|]. rewrite <- !app_assoc. constructor; auto.
Qed.
Lemma ascii_encode : forall p, Forall ascii_plain_char p -> utf8_encode p = p.
Proof.
  intros p F. induction F as [|c p H F IH]; [reflexivity|]. cbn [utf8_encode]. destruct H as (A & _). rewrite ascii_plain by lia. rewrite IH. reflexivity.
Qed.
Lemma print_idchar_eq : forall c, print_idchar c = idchar c.
Proof. intros c. unfold print_idchar, idchar. rewrite <- !orb_assoc. rewrite (orb_comm (in_range 97 122 c)). rewrite <- !orb_assoc. f_equal. f_equal. apply orb_comm. Qed.
Lemma idchar_ascii : forall c, idchar c = true -> 33 <= c < 127 /\ c <> 34.
Proof.
  intros c H. apply idchar_word in H. unfold word_char in H. destruct H as [H|[H|[H|H]]]; try lia.
  cbn in H. repeat destruct H as [<-|H]; try contradiction H; lia.
Qed.
(** Namings as [Naming::new] makes them. *)
Definition naming_ok (n : naming) : Prop :=
  Forall (fun c => is_scalar c = true) (snd n) /\
  match fst n with
  | DollarName => snd n <> [] /\ Forall (fun c => idchar c = true) (snd n)
  | DollarQuotedName => snd n <> []
  | SyntheticPrefix p => p <> [] /\ Forall ascii_plain_char p
  end.
Lemma fmt_plain : forall b n, 2 <= b <= 16 -> 0 <= n -> Forall ascii_plain_char (fmt_uint b n).
Proof.
  intros b n B N. eapply Forall_impl; [|apply (fmt_chars b B n N)]. intros c H. apply hex_idchar in H as Q.
  apply idchar_ascii in Q. unfold ascii_plain_char. split; [lia|]. split; [tauto|]. intros ->. discriminate H.
Qed.
Lemma new_ok : forall s i group used, Forall (fun c => is_scalar c = true) s -> 0 <= i -> Forall ascii_plain_char group ->
  naming_ok (fst (naming_new s i group used)).
Proof.
  intros s i group used F I G.
  assert (SY : naming_ok (SyntheticPrefix (35 :: group ++ fmt_uint 10 i), s)).
  { split; [exact F|]. cbn [fst snd]. split; [discriminate|]. constructor; [unfold ascii_plain_char; lia|].
    apply Forall_app. split; [exact G|]. apply fmt_plain; lia. }
  assert (PL : s <> [] -> naming_ok ((if existsb (fun c => negb (print_idchar c)) s then DollarQuotedName else DollarName), s)).
  { intros N. split; [exact F|]. cbn [fst snd]. destruct (existsb _ s) eqn:E; [exact N|]. split; [exact N|].
    apply Forall_forall. intros c IN. rewrite <- print_idchar_eq. destruct (print_idchar c) eqn:P; [reflexivity|].
    assert (existsb (fun c => negb (print_idchar c)) s = true); [|congruence]. apply existsb_exists. exists c. rewrite P. auto. }
  unfold naming_new. destruct s as [|c s']; [exact SY|]. destruct (c =? 35); [exact SY|].
  destruct used as [l|]; [|apply PL; discriminate]. destruct (mem _ l); [exact SY|apply PL; discriminate].
Qed.
Lemma ident_scalar : forall n, naming_ok n -> Forall (fun c => is_scalar c = true) (ident n).
Proof.
  intros [k s] [F H]. cbn [fst snd] in *. unfold ident. cbn [fst snd]. destruct k; try exact F. destruct H as [_ H].
  apply Forall_app. split.
  - eapply Forall_impl; [|exact H]. intros c (A & _). apply scalar_iff. lia.
  - constructor; [reflexivity|exact F].
Qed.
Theorem identifier_read : forall allow n rest, naming_ok n -> delimited rest ->
  parse_token allow (write_identifier n ++ rest) = LOk (Some (TId, write_identifier n, rest)) /\
  token_id (write_identifier n) = LOk (utf8_encode (ident n)).
Proof.
  intros allow [k s] rest OK D. pose proof (ident_scalar _ OK) as SC. destruct OK as [F H]. cbn [fst snd] in *.
  assert (QUOTED : forall t, contents (plain_ok allow) t (utf8_encode (ident (k, s))) -> contents (plain_ok true) t (utf8_encode (ident (k, s))) ->
     ident (k, s) <> [] ->
     parse_token allow ((36 :: 34 :: t ++ [34]) ++ rest) = LOk (Some (TId, 36 :: 34 :: t ++ [34], rest)) /\
     token_id (36 :: 34 :: t ++ [34]) = LOk (utf8_encode (ident (k, s)))).
  { intros t C1 C2 NE. split.
    - cbn [app]. rewrite <- app_assoc. cbn [app]. apply (id_string_token allow t _ rest C1 D).
    - unfold token_id, parse_name. cbn [tl]. rewrite (parse_str_complete true t _ [] C2). cbn [lbind].
      rewrite valid_encode by exact SC. cbn [lbind].
      destruct (utf8_encode (ident (k, s))) as [|x l] eqn:E; [|reflexivity]. exfalso.
      destruct (ident (k, s)) as [|c i] eqn:EI; [congruence|]. cbn [utf8_encode] in E.
      assert (is_scalar c = true) as SCC by (inversion SC; assumption).
      pose proof (head_encode c (utf8_encode i) SCC) as Q. rewrite E in Q. discriminate. }
  destruct k as [| |p]; unfold write_identifier; cbn [fst snd].
  - destruct H as [NE HI]. split.
    + cbn [app]. apply dollar_token; assumption.
    + unfold token_id. cbn [tl]. destruct s as [|c s]; [contradiction|].
      assert (idchar c = true) as IC by (inversion HI; assumption). apply idchar_ascii in IC.
      assert (parse_name (c :: s) = LOk (utf8_encode (c :: s))) as ->.
      { unfold parse_name. destruct c as [|c|c]; [lia| |lia]. do 6 (destruct c as [c|c|]; try reflexivity). exfalso. lia. }
      cbn [lbind]. unfold ident. cbn [fst snd utf8_encode]. rewrite ascii_plain by lia. reflexivity.
  - unfold ident in QUOTED. cbn [fst snd] in QUOTED. apply QUOTED; [apply print_contents; exact F|apply print_contents; exact F|exact H].
  - destruct H as [NE HP].
    assert (C : forall al, contents (plain_ok al) (p ++ 32 :: print_str_contents s) (utf8_encode (ident (SyntheticPrefix p, s)))).
    { intros al. unfold ident. cbn [fst snd]. rewrite encode_app. rewrite (ascii_encode p HP).
      apply contents_app; [apply plain_contents; exact HP|].
      change (32 :: print_str_contents s) with ([32] ++ print_str_contents s).
      change (utf8_encode (32 :: s)) with ([32] ++ utf8_encode s).
      apply contents_app; [|apply print_contents; exact F]. apply plain_contents. constructor; [unfold ascii_plain_char; lia|constructor]. }
    specialize (QUOTED (p ++ 32 :: print_str_contents s) (C allow) (C true)). rewrite <- app_assoc in QUOTED. cbn [app] in QUOTED.
    rewrite <- !app_comm_cons in *. rewrite <- app_assoc in *. cbn [app] in *.
    apply QUOTED. unfold ident. cbn [fst snd]. destruct p; [contradiction|discriminate].
Qed.
