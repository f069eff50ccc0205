(** Hexadecimal float literals: token, parts, value. *)
From Coq Require Import ZArith Lia List Bool String Arith.
From Verif Require Import Base.Prelude Base.BitFacts Base.Utf8 Names.Kebab Names.Name Names.NameProofs Text.Lexer Text.Spec Text.LexProofs Text.Print Text.PrintProofs
  Text.Numbers Text.IntProofs Text.FloatCore Text.FloatFinish Text.HexFloat.
Import ListNotations.
Open Scope Z_scope.

Definition exp_text (x : option (bool * isign * str)) : str :=
  match x with None => [] | Some (up, s, x) => (if up : bool then lit "P" else lit "p") ++ sign_text s ++ x end.
Definition frac_text (f : option str) : str := match f with None => [] | Some f => lit "." ++ f end.
Definition exp_digits (x : option (bool * isign * str)) : str := match x with None => [] | Some (_, _, x) => x end.
Definition hl_us (l : hex_lit) : bool := has_us (hl_int l ++ hl_fdigits l ++ exp_digits (hl_exp l)).
Lemma hl_text_eq : forall l, hl_text l = sign_text (hl_sign l) ++ lit "0x" ++ hl_int l ++ frac_text (hl_frac l) ++ exp_text (hl_exp l).
Proof. intros [sg i f x]. unfold hl_text, frac_text, exp_text. cbn [hl_sign hl_int hl_frac hl_exp]. destruct f, x as [[[]]|]; reflexivity. Qed.
Definition b16 : base_ok 16 := or_introl eq_refl.
Definition b10 : base_ok 10 := or_intror eq_refl.
Definition exp_wf (x : option (bool * isign * str)) : Prop := match x with None => True | Some (_, _, x) => number 10 x end.
Lemma exp_ends : forall x, ends_digits 16 (exp_text x).
Proof. intros [[[up s] x]|]; [|exact Logic.I]. destruct up; (split; [reflexivity|discriminate]). Qed.
Lemma exp_part : forall x has, exp_wf x -> exponent_part true has (exp_text x) = Some (TFloat (FNormal (has || has_us (exp_digits x)) true)).
Proof.
  intros [[[up s] x]|] has X.
  2:{ cbn. rewrite orb_false_r. reflexivity. }
  cbn [exp_wf exp_digits] in *.
  assert (SK : skip_underscores is_dec x = Some (has_us x, [])).
  { pose proof (skip_number 10 x [] b10 X Logic.I) as Q. rewrite app_nil_r in Q. exact Q. }
  assert (IT : (match sign_text s ++ x with c :: it' => if (c =? 45) || (c =? 43) then it' else sign_text s ++ x | [] => sign_text s ++ x end) = x).
  { destruct s; try reflexivity. cbn [sign_text app]. destruct (number_start _ _ X) as (d & t & -> & D). destruct (digit_first 10 d t b10 D) as [N1 N2].
    assert ((d =? 45) = false) as -> by (apply Z.eqb_neq; exact N2). assert ((d =? 43) = false) as -> by (apply Z.eqb_neq; exact N1). reflexivity. }
  unfold exp_text. destruct up; cbn [app lit]; change (lit "P") with [80]; change (lit "p") with [112]; cbn [app]; unfold exponent_part.
  - change ((80 =? 112) || (80 =? 80)) with true. cbv iota. rewrite IT, SK. destruct (has_us x), has; reflexivity.
  - change ((112 =? 112) || (112 =? 80)) with true. cbv iota. rewrite IT, SK. destruct (has_us x), has; reflexivity.
Qed.
Lemma frac_ends : forall f x, ends_digits 16 (frac_text f ++ exp_text x).
Proof. intros [f|] x; [split; [reflexivity|discriminate]|]. cbn [frac_text app]. apply exp_ends. Qed.
Definition hl_kind (l : hex_lit) : tkind :=
  match hl_frac l, hl_exp l with
  | None, None => TInteger (has_us (hl_int l)) (lex_sign (hl_sign l)) true
  | _, _ => TFloat (FNormal (hl_us l) true)
  end.
Lemma hl_class : forall l, hl_wf l -> classify_number (hl_text l) = Some (hl_kind l).
Proof.
  intros [sg i f x] (NI & NF & NX). rewrite hl_text_eq. unfold hl_kind, hl_us, hl_fdigits. cbn [hl_sign hl_int hl_frac hl_exp] in *.
  destruct (prefix_digits true i (frac_text f ++ exp_text x) NI ltac:(discriminate)) as ((S1 & S2 & S3) & NS & PX). cbn [prefix_text] in *.
  unfold classify_number. rewrite split_text by exact NS. rewrite S1, S2, S3.
  match goal with |- (let '(_, _) := ?m in _) = _ => assert (m = (i ++ frac_text f ++ exp_text x, true)) as -> by exact PX end.
  assert (EW : exp_wf x) by (destruct x as [[[]]|]; exact NX).
  pose proof (skip_number 16 i _ b16 NI (frac_ends f x)) as SK. change (good 16) with is_hex in SK. rewrite SK.
  destruct f as [f|]; cbn [frac_text] in *.
  - change (lit "." ++ f) with (46 :: f). cbn [app]. change (46 =? 46) with true. cbv iota.
    destruct f as [|c f].
    + cbn [app]. assert (Q : match exp_text x with [] => True | y :: _ => is_hex y = false end).
      { pose proof (exp_ends x) as E. destruct (exp_text x); [exact Logic.I|]. exact (proj1 E). }
      rewrite !has_app. change (has_us []) with false. cbn [orb]. rewrite <- (exp_part x (has_us i) EW).
      destruct (exp_text x) as [|y r] eqn:EX; [|rewrite Q]; reflexivity.
    + cbn [app]. assert (H : is_hex c = true) by (destruct (number_start _ _ NF) as (d & t & E & D); injection E as -> ->; apply is_digit_16; exact D). rewrite H.
      pose proof (skip_number 16 (c :: f) (exp_text x) b16 NF (exp_ends x)) as SK'. change (good 16) with is_hex in SK'. cbn [app] in SK'. rewrite SK'.
      rewrite exp_part by exact EW. change (c :: f ++ exp_digits x) with ((c :: f) ++ exp_digits x). rewrite !has_app. destruct (has_us (c :: f)), (has_us i); reflexivity.
  - cbn [app]. rewrite !has_app. change (has_us []) with false. cbn [orb].
    destruct x as [[[up s] x]|]; [|reflexivity]. rewrite <- (exp_part (Some (up, s, x)) (has_us i) EW).
    destruct (exp_text (Some (up, s, x))) as [|y r] eqn:EX; [destruct up; discriminate EX|].
    assert (y <> 46) by (intros ->; destruct up; discriminate EX). assert ((y =? 46) = false) as -> by (apply Z.eqb_neq; assumption). reflexivity.
Qed.
Lemma not_in_number : forall base t c, base_ok base -> number base t -> is_hex c = false -> c <> 95 -> ~ In c t.
Proof. intros base t c B N H U I. pose proof (number_chars base t B N) as F. rewrite Forall_forall in F. destruct (F _ I) as [E|E]; congruence. Qed.
Lemma not_in_sign : forall s c, c <> 43 -> c <> 45 -> ~ In c (sign_text s).
Proof. intros [| |] c A B; [intros []|intros [I|[]]; apply A; symmetry; exact I|intros [I|[]]; apply B; symmetry; exact I]. Qed.
Lemma not_in_0x : forall c, c <> 48 -> c <> 120 -> ~ In c (lit "0x").
Proof. intros c A B [I|[I|[]]]; [apply A|apply B]; symmetry; exact I. Qed.
Lemma us_drop : forall (u : bool) s, (has_us s = true -> u = true) -> (if u then drop_underscores s else s) = drop_underscores s.
Proof. intros [|] s H; [reflexivity|]. symmetry. apply drop_id. destruct (has_us s); [discriminate (H eq_refl)|reflexivity]. Qed.
Lemma strip_sign : forall s x, no_sign x -> strip_or (lit "+") (sign_text s ++ x) = minus_text s ++ x.
Proof.
  intros [| |] x N; try reflexivity. cbn [sign_text minus_text app]. unfold strip_or. change (lit "+") with [43]. destruct x as [|c x]; [reflexivity|].
  cbn [strip_prefix]. destruct N as [N _]. assert ((43 =? c) = false) as -> by (apply Z.eqb_neq; lia). reflexivity.
Qed.
Lemma int_part : forall (u : bool) sg i, number 16 i -> (has_us i = true -> u = true) ->
  drop_0x (if u then drop_underscores (strip_or (lit "+") (sign_text sg ++ lit "0x" ++ i)) else strip_or (lit "+") (sign_text sg ++ lit "0x" ++ i)) =
  minus_text sg ++ drop_underscores i.
Proof.
  intros u sg i N U. rewrite strip_sign by (cbn; lia). rewrite us_drop.
  2:{ rewrite !has_app. destruct sg; exact U. }
  rewrite !drop_app. assert (drop_underscores (minus_text sg) = minus_text sg) as -> by (destruct sg; reflexivity).
  change (drop_underscores (lit "0x")) with [48; 120]. assert (NX : ~ In 120 (drop_underscores i)) by (intros H; apply in_drop in H; revert H; eapply hexless; [apply b16|exact N]).
  cbn [app]. destruct sg; cbn [minus_text app]; try (rewrite drop_0x_prefix; apply drop_0x_id; exact NX).
  cbn [drop_0x]. change (45 =? 48) with false. cbn [andb]. change (48 =? 48) with true. change (120 =? 120) with true. cbn [andb].
  f_equal. apply drop_0x_id. exact NX.
Qed.
Definition frac_of (f : option str) : option str := match f with None | Some [] => None | Some f => Some (drop_underscores f) end.
Definition exp_of (x : option (bool * isign * str)) : option str := match x with None => None | Some (_, s, x) => Some (minus_text s ++ drop_underscores x) end.
Lemma split_exp_ok : forall a x, ~ In 112 a -> ~ In 80 a -> exp_wf x ->
  split_exp true (a ++ exp_text x) = (a, match x with None => None | Some (_, s, x) => Some (sign_text s ++ x) end).
Proof.
  intros a [[[up s] x]|] P1 P2 X; unfold split_exp; cbn [exp_text].
  - destruct up; [change (lit "P" ++ sign_text s ++ x) with (80 :: sign_text s ++ x)|change (lit "p" ++ sign_text s ++ x) with (112 :: sign_text s ++ x)].
    + rewrite (proj2 (find_none 112 _)).
      * rewrite find_app by exact P2. reflexivity.
      * intros I. apply in_app_iff in I. destruct I as [I|[I|I]]; [contradiction|discriminate I|]. apply in_app_iff in I. destruct I as [I|I].
        -- revert I. apply not_in_sign; lia.
        -- revert I. apply (not_in_number 10); [exact b10|exact X|reflexivity|lia].
    + rewrite find_app by exact P1. reflexivity.
  - rewrite app_nil_r. rewrite (proj2 (find_none 112 _) P1), (proj2 (find_none 80 _) P2). reflexivity.
Qed.
Lemma exp_parts : forall (u : bool) x, exp_wf x -> (has_us (exp_digits x) = true -> u = true) ->
  option_map (fun s => if u then drop_underscores s else s) (option_map (strip_or (lit "+")) (match x with None => None | Some (_, s, x) => Some (sign_text s ++ x) end)) = exp_of x.
Proof.
  intros u [[[up s] x]|] X U; [|reflexivity]. cbn [option_map exp_of exp_digits exp_wf] in *. f_equal.
  rewrite strip_sign by (destruct (number_start _ _ X) as (d & t & -> & D); apply (digit_first 10 d t b10 D)).
  rewrite us_drop; [rewrite drop_app; f_equal; destruct s; reflexivity|]. rewrite has_app. destruct s; exact U.
Qed.
Lemma hl_token : forall dec w e l, hl_wf l ->
  parse_float dec w e (hl_kind l) (hl_text l) = hexfloat w e (minus_text (hl_sign l) ++ drop_underscores (hl_int l)) (frac_of (hl_frac l)) (exp_of (hl_exp l)).
Proof.
  intros dec w e [sg i f x] (NI & NF & NX). unfold hl_kind, hl_us, hl_fdigits. cbn [hl_sign hl_int hl_frac hl_exp] in *.
  assert (EW : exp_wf x) by (destruct x as [[[]]|]; exact NX).
  destruct f as [f|].
  - assert (FN : forall c, is_hex c = false -> c <> 95 -> ~ In c f).
    { intros c H U. destruct f as [|y f]; [intros []|]. apply (not_in_number 16); [exact b16|exact NF|exact H|exact U]. }
    assert (P : parse_float dec w e (TFloat (FNormal (has_us (i ++ f ++ exp_digits x)) true)) (hl_text (HexLit sg i (Some f) x)) =
       hexfloat w e (minus_text sg ++ drop_underscores i) (frac_of (Some f)) (exp_of x)); [|destruct x; exact P].
    unfold parse_float, token_float. rewrite hl_text_eq. cbn [hl_sign hl_int hl_frac hl_exp frac_text].
    replace (sign_text sg ++ lit "0x" ++ i ++ (lit "." ++ f) ++ exp_text x) with ((sign_text sg ++ lit "0x" ++ i) ++ 46 :: f ++ exp_text x) by (rewrite <- !app_assoc; reflexivity).
    rewrite find_app.
    2:{ intros I. apply in_app_iff in I. destruct I as [I|I]; [revert I; apply not_in_sign; lia|]. apply in_app_iff in I.
        destruct I as [I|I]; [revert I; apply not_in_0x; lia|]. revert I. apply (not_in_number 16); [exact b16|exact NI|reflexivity|lia]. }
    cbn [tl]. rewrite split_exp_ok; [|apply FN; [reflexivity|lia]|apply FN; [reflexivity|lia]|exact EW].
    set (u := has_us (i ++ f ++ exp_digits x)).
    assert (UI : has_us i = true -> u = true) by (intros H; unfold u; rewrite has_app, H; reflexivity).
    assert (UF : has_us f = true -> u = true) by (intros H; unfold u; rewrite !has_app, H, orb_true_r; reflexivity).
    assert (UX : has_us (exp_digits x) = true -> u = true) by (intros H; unfold u; rewrite !has_app, H, !orb_true_r; reflexivity).
    rewrite int_part by assumption. rewrite exp_parts by assumption. cbn [strto].
    f_equal. destruct f as [|y f]; [reflexivity|]. cbn [option_map frac_of]. f_equal. apply us_drop. exact UF.
  - cbn [app frac_of]. destruct x as [x|].
    + unfold parse_float, token_float. rewrite hl_text_eq. cbn [hl_sign hl_int hl_frac hl_exp frac_text app].
      replace (sign_text sg ++ lit "0x" ++ i ++ exp_text (Some x)) with ((sign_text sg ++ lit "0x" ++ i) ++ exp_text (Some x)) by (rewrite <- !app_assoc; reflexivity).
      assert (AN : forall c, c <> 43 -> c <> 45 -> c <> 48 -> c <> 120 -> is_hex c = false -> c <> 95 -> ~ In c (sign_text sg ++ lit "0x" ++ i)).
      { intros c A1 A2 A3 A4 A5 A6 I. apply in_app_iff in I. destruct I as [I|I]; [revert I; apply not_in_sign; lia|]. apply in_app_iff in I.
        destruct I as [I|I]; [revert I; apply not_in_0x; assumption|]. revert I. apply (not_in_number 16); assumption || exact b16. }
      rewrite (proj2 (find_none 46 _)).
      2:{ intros I. apply in_app_iff in I. destruct I as [I|I]; [revert I; apply AN; try lia; reflexivity|]. destruct x as [[up s] x]. cbn [exp_text] in I.
          apply in_app_iff in I. destruct I as [I|I]; [destruct up; destruct I as [I|[]]; discriminate I|]. apply in_app_iff in I.
          destruct I as [I|I]; [revert I; apply not_in_sign; lia|]. revert I. apply (not_in_number 10); [exact b10|exact EW|reflexivity|lia]. }
      rewrite split_exp_ok; [|apply AN; try lia; reflexivity|apply AN; try lia; reflexivity|exact EW].
      set (u := has_us (i ++ exp_digits (Some x))).
      assert (UI : has_us i = true -> u = true) by (intros H; unfold u; rewrite has_app, H; reflexivity).
      assert (UX : has_us (exp_digits (Some x)) = true -> u = true) by (intros H; unfold u; rewrite !has_app, H, !orb_true_r; reflexivity).
      rewrite int_part by assumption. rewrite <- (exp_parts u (Some x) EW UX). reflexivity.
    + unfold parse_float. pose proof (token_digits (IntLit sg true i) NI) as T. cbn [il_sign il_hex il_digits il_base] in T. 
      assert (hl_text (HexLit sg i None None) = il_text (IntLit sg true i)) as ->.
      { rewrite hl_text_eq. unfold il_text. cbn [hl_sign hl_int hl_frac hl_exp frac_text exp_text il_sign il_hex il_digits app]. rewrite app_nil_r. reflexivity. }
      rewrite T. reflexivity.
Qed.
Lemma hl_idchars : forall l, hl_wf l -> Forall (fun c => idchar c = true) (hl_text l) /\ hl_text l <> [].
Proof.
  intros [sg i f x] (NI & NF & NX). rewrite hl_text_eq. cbn [hl_sign hl_int hl_frac hl_exp] in *.
  assert (NUM : forall b t, base_ok b -> number b t -> Forall (fun c => idchar c = true) t).
  { intros b t B N. eapply Forall_impl; [|apply (number_chars b); assumption]. intros c [H| ->]; [apply hex_idchar; exact H|reflexivity]. }
  assert (SG : forall s, Forall (fun c => idchar c = true) (sign_text s)) by (intros []; repeat constructor).
  split.
  - apply Forall_app. split; [apply SG|]. apply Forall_app. split; [repeat constructor|]. apply Forall_app. split; [apply (NUM 16); [exact b16|exact NI]|].
    apply Forall_app. split.
    + destruct f as [f|]; [|constructor]. cbn [frac_text]. apply Forall_app. split; [repeat constructor|]. destruct f; [constructor|]. apply (NUM 16); [exact b16|exact NF].
    + destruct x as [[[up s] x]|]; [|constructor]. cbn [exp_text]. apply Forall_app. split; [destruct up; repeat constructor|].
      apply Forall_app. split; [apply SG|]. apply (NUM 10); [exact b10|exact NX].
  - destruct sg; discriminate.
Qed.

(** The digits. *)
Lemma drop_hex : forall t, match t with [] => True | _ => number 16 t end -> Forall (fun c => is_hex c = true) (drop_underscores t).
Proof.
  intros [|c t] N; [constructor|]. destruct (dropped_digits 16 (c :: t) b16 N) as [F _]. eapply Forall_impl; [|exact F]. intros d. apply is_digit_16.
Qed.
Lemma values_drop : forall s, digit_values s = digit_values (drop_underscores s).
Proof.
  induction s as [|c s IH]; [reflexivity|]. unfold digit_values in *. cbn [drop_underscores filter flat_map]. destruct (c =? 95) eqn:E; cbn [negb].
  - apply Z.eqb_eq in E. subst c. exact IH.
  - cbn [flat_map]. f_equal. exact IH.
Qed.
Lemma values_hex : forall s, Forall (fun c => is_hex c = true) s -> digit_values s = vals s.
Proof.
  intros s F. induction F as [|c s H F IH]; [reflexivity|]. unfold digit_values, vals in *. cbn [flat_map map].
  assert (digit_value c = Some (to_hex c)) as -> by (apply digit_value_hex; auto). cbn [app]. f_equal. exact IH.
Qed.
Lemma zeros_trim : forall s, Forall (fun c => is_hex c = true) s -> drop_zeros (vals s) = vals (trim s).
Proof.
  intros s F. induction F as [|c s H F IH]; [reflexivity|]. unfold trim, trim_start, vals in *. cbn [map drop_zeros skip_while].
  destruct (to_hex c =? 0) eqn:E.
  - apply Z.eqb_eq in E. apply hex_zero in E; [|exact H]. subst c. change (48 =? 48) with true. exact IH.
  - assert ((48 =? c) = false) as ->; [|reflexivity]. apply Z.eqb_neq. intros <-. discriminate E.
Qed.
Lemma counted_safe : forall w l, hl_wf l -> counted w l -> safe w (trim (drop_underscores (hl_int l) ++ drop_underscores (hl_fdigits l))).
Proof.
  intros w [sg i f x] (NI & NF & NX) C. unfold counted, hl_digits, hl_fdigits in *. cbn [hl_int hl_frac] in *.
  set (fd := match f with Some f => f | None => [] end) in *.
  assert (FF : Forall (fun c => is_hex c = true) (drop_underscores i ++ drop_underscores fd)).
  { apply Forall_app. split; apply drop_hex; [destruct i; [exact Logic.I|exact NI]|]. unfold fd. destruct f as [[|]|]; auto. }
  rewrite values_drop, drop_app, values_hex, zeros_trim in C by exact FF.
  pose proof (trim_hex _ _ FF) as FT. destruct (trim _) as [|c t]; [exact Logic.I|]. cbn [safe vals map] in *. fold (vals t) in *.
  assert (D : is_hex c = true) by (inversion FT; assumption). pose proof (to_hex_range c D) as R.
  unfold clean. destruct C as [C|[C|C]].
  - left. assert (Z.log2 (to_hex c) = 3); [|lia]. apply Z.log2_unique; lia.
  - right. left. exact C.
  - right. right. apply existsb_exists. apply Exists_exists in C. destruct C as (y & Y1 & Y2). exists y. split; [exact Y1|]. unfold nz. apply negb_true_iff. apply Z.eqb_neq. exact Y2.
Qed.
Lemma hex_lit_value : forall dec w e l, fmt_ok w e -> hl_wf l -> zlen (hl_text l) < 2 ^ 28 -> - 2 ^ 30 < hl_exp10 l < 2 ^ 30 -> counted w l ->
  exists b, rounds_to w e (hl_units_num w e l) (hl_units_den w e l) b /\
    parse_float dec w e (hl_kind l) (hl_text l) =
      if b =? inf_bits w e then None else Some (b + match hl_sign l with IMinus => 2 ^ (w - 1) | _ => 0 end).
Proof.
  intros dec w e l W WF LEN XB C. rewrite hl_token by exact WF. pose proof (counted_safe w l WF C) as SF. destruct l as [sg i f x]. pose proof WF as (NI & NF & NX).
  unfold hl_units_num, hl_units_den, hl_exp2, hl_num in *. rewrite hl_text_eq in LEN. unfold hl_fdigits, hl_exp10 in *. cbn [hl_sign hl_int hl_frac hl_exp] in *.
  set (fd := match f with Some f => f | None => [] end) in *.
  set (neg := match sg with IMinus => true | _ => false end).
  assert (minus_text sg = if neg then [45] else []) as -> by (destruct sg; reflexivity).
  assert ((match sg with IMinus => 2 ^ (w - 1) | _ => 0 end) = if neg then 2 ^ (w - 1) else 0) as -> by (destruct sg; reflexivity).
  assert (FI : Forall (fun c => is_hex c = true) (drop_underscores i)) by (apply drop_hex; destruct i; [exact Logic.I|exact NI]).
  assert (FD : Forall (fun c => is_hex c = true) (drop_underscores fd)) by (apply drop_hex; unfold fd; destruct f as [[|]|]; auto).
  assert (DL : forall s, zlen (drop_underscores s) <= zlen s).
  { intros s. induction s as [|c s IH]; [reflexivity|]. cbn [drop_underscores filter]. destruct (negb (c =? 95)); rewrite ?zlen_cons; unfold drop_underscores in IH; lia. }
  rewrite !zlen_app in LEN. pose proof (zlen_nonneg (sign_text sg)). pose proof (zlen_nonneg (lit "0x")). pose proof (zlen_nonneg (exp_text x)). pose proof (zlen_nonneg i).
  pose proof (zlen_nonneg (frac_text f)).
  assert (zlen fd <= zlen (frac_text f)) by (unfold fd; destruct f as [f|]; [cbn [frac_text]; rewrite zlen_app; pose proof (zlen_nonneg (lit ".")); lia|cbn; lia]).
  pose proof (DL i). pose proof (DL fd).
  set (x10 := match x with None => 0 | Some (_, s, x) => match s with IMinus => - magnitude 10 x | _ => magnitude 10 x end end) in *.
  assert (HX : match exp_of x with Some s => i_from 32 s 10 = Some x10 | None => x10 = 0 end).
  { destruct x as [[[up s] x]|]; [|reflexivity]. cbn [exp_of]. destruct (dropped_digits 10 x b10 NX) as [F NE]. unfold i_from.
    rewrite radix_text; [|exact b10|change (2 ^ (32 - 1)) with (2 ^ 31); lia|exact F|exact NE].
    assert (AC : accum 10 0 (drop_underscores x) = magnitude 10 x) by apply mag_drop. rewrite AC.
    change (2 ^ (32 - 1)) with (2 ^ 31). unfold x10 in *. change (- 2 ^ 31 <? 0) with true. cbn [andb].
    destruct s.
    - assert ((magnitude 10 x <=? 2 ^ 31 - 1) = true) as -> by (apply Z.leb_le; lia). reflexivity.
    - assert ((magnitude 10 x <=? 2 ^ 31 - 1) = true) as -> by (apply Z.leb_le; lia). reflexivity.
    - assert ((- 2 ^ 31 <=? - magnitude 10 x) = true) as -> by (apply Z.leb_le; lia). reflexivity. }
  destruct (hexfloat_correct w e W neg (drop_underscores i) (drop_underscores fd) (frac_of f) (exp_of x) x10 FI FD) as (b & R & H'); try assumption; try lia.
  { unfold fd, frac_of. destruct f as [[|]|]; reflexivity. }
  exists b. split; [|exact H'].
  assert (MV : magnitude 16 (i ++ fd) = val (vals (drop_underscores i ++ drop_underscores fd))).
  { rewrite <- vals_magnitude by (apply Forall_app; split; assumption). rewrite <- drop_app, mag_drop. reflexivity. }
  rewrite MV. exact R.
Qed.
