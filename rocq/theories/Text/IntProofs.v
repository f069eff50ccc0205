(** Integer literals. *)
From Coq Require Import ZArith Lia List Bool String Arith.
From Verif Require Import Base.Prelude Base.Utf8 Names.Kebab Names.Name Names.NameProofs Text.Lexer Text.Spec Text.LexProofs Text.Print Text.PrintProofs Text.Numbers.
Import ListNotations.
Open Scope Z_scope.

Definition good (base : Z) : Z -> bool := if base =? 16 then is_hex else is_dec.
Definition base_ok (base : Z) : Prop := base = 16 \/ base = 10.
Definition has_us (s : str) : bool := existsb (Z.eqb 95) s.
Lemma good_digit : forall base c, base_ok base -> good base c = true <-> is_digit base c.
Proof. intros base c [-> | ->]; unfold good; cbn [Z.eqb Pos.eqb]; symmetry; [apply is_digit_16|apply is_digit_10]. Qed.
Lemma good_hex : forall base c, base_ok base -> good base c = true -> is_hex c = true.
Proof.
  intros base c [-> | ->]; unfold good; cbn [Z.eqb Pos.eqb]; [auto|]. unfold is_dec, is_hex. intros ->. reflexivity.
Qed.
Lemma us_step : forall base, base_ok base -> forall last has c s, good base c = true ->
  us_loop (good base) last has (c :: s) = us_loop (good base) false has s.
Proof.
  intros base B last has c s G. cbn [us_loop]. rewrite (hex_not_us c (good_hex base c B G)). cbn [andb]. rewrite G. reflexivity.
Qed.
Lemma has_app : forall a b, has_us (a ++ b) = has_us a || has_us b.
Proof. intros. apply existsb_app. Qed.
Lemma has_digit : forall base d, base_ok base -> is_digit base d -> has_us [d] = false.
Proof.
  intros base d B D. apply good_digit in D; [|exact B]. apply (good_hex base) in D; [|exact B]. unfold has_us. cbn [existsb].
  rewrite Z.eqb_sym, (hex_not_us d D). reflexivity.
Qed.
Lemma skip_reads : forall base, base_ok base -> forall t, number base t -> forall s,
  skip_underscores (good base) (t ++ s) = us_loop (good base) false (has_us t) s.
Proof.
  intros base B t N. induction N as [d D|t d N IH D|t d N IH D]; intros s.
  - cbn [app skip_underscores]. rewrite (has_digit base d B D). apply (good_digit base d B) in D. rewrite D. reflexivity.
  - rewrite <- app_assoc, IH, has_app, (has_digit base d B D), orb_false_r. apply (good_digit base d B) in D. cbn [app]. apply us_step; assumption.
  - rewrite <- app_assoc, IH. change [95; d] with ([95] ++ [d]). rewrite !has_app, (has_digit base d B D). cbn [app].
    apply (good_digit base d B) in D. cbn [us_loop]. change (95 =? 95) with true. cbn [negb andb].
    assert (has_us [95] = true) as -> by reflexivity. rewrite orb_false_r, orb_true_r.
    rewrite (hex_not_us d (good_hex base d B D)). cbn [andb]. rewrite D. reflexivity.
Qed.
(** What may follow the digits. *)
Definition ends_digits (base : Z) (s : str) : Prop := match s with [] => True | c :: _ => good base c = false /\ c <> 95 end.
Lemma skip_number : forall base t s, base_ok base -> number base t -> ends_digits base s ->
  skip_underscores (good base) (t ++ s) = Some (has_us t, s).
Proof.
  intros base t s B N E. rewrite (skip_reads base B t N). destruct s as [|c s]; [reflexivity|]. destruct E as [E1 E2].
  cbn [us_loop]. apply Z.eqb_neq in E2. rewrite E2. cbn [andb]. rewrite E1. reflexivity.
Qed.
Lemma us_sound : forall base, base_ok base -> forall (s t : str) (k : nat) (last u has : bool) (rest : str), number base t -> has = has_us (t ++ repeat 95 k) ->
  (k = if last then 1%nat else 0%nat) -> us_loop (good base) last has s = Some (u, rest) ->
  exists t', repeat 95 k ++ s = t' ++ rest /\ number base (t ++ t') /\ u = has_us (t ++ t').
Proof.
  intros base B. induction s as [|c s IH]; intros t k last u has rest N H K L.
  - cbn [us_loop] in L. destruct last; [discriminate|]. injection L as <- <-. subst k. exists []. cbn in *. rewrite app_nil_r in *. auto.
  - cbn [us_loop] in L. destruct ((c =? 95) && negb last) eqn:E.
    + apply andb_true_iff in E. destruct E as [E1 E2]. apply Z.eqb_eq in E1. destruct last; [discriminate|]. subst c k.
      destruct (IH t 1%nat true u true rest N) as (t' & A & C & D); [|reflexivity|exact L|].
      * cbn [repeat]. rewrite has_app. change (has_us [95]) with true. rewrite orb_true_r. reflexivity.
      * exists t'. auto.
    + destruct (good base c) eqn:G; cbn [negb] in L.
      * assert (D : is_digit base c) by (apply good_digit; assumption).
        assert (N' : number base (t ++ repeat 95 k ++ [c])).
        { destruct last; subst k; [apply N_under|apply N_more]; assumption. }
        assert (HS : has = has_us ((t ++ repeat 95 k ++ [c]) ++ repeat 95 0)).
        { cbn [repeat]. rewrite app_nil_r, app_assoc, has_app, (has_digit base c B D), orb_false_r. exact H. }
        destruct (IH _ 0%nat false u has rest N' HS eq_refl L) as (t' & A & C & E'). cbn [repeat app] in A.
        exists (repeat 95 k ++ [c] ++ t'). subst s. rewrite <- !app_assoc in C, E'. split; [rewrite <- !app_assoc; reflexivity|]. auto.
      * destruct last; [discriminate|]. injection L as <- <-. subst k. exists []. cbn in *. rewrite app_nil_r in *. auto.
Qed.
Lemma skip_sound : forall base s u rest, base_ok base -> skip_underscores (good base) s = Some (u, rest) ->
  exists t, s = t ++ rest /\ number base t /\ u = has_us t.
Proof.
  intros base [|c s] u rest B H; [discriminate|]. cbn [skip_underscores] in H. destruct (good base c) eqn:G; cbn [negb] in H; [|discriminate].
  assert (D : is_digit base c) by (apply good_digit; assumption).
  destruct (us_sound base B s [c] 0%nat false u false rest) as (t' & A & C & E).
  - constructor. exact D.
  - cbn [repeat]. rewrite app_nil_r, (has_digit base c B D). reflexivity.
  - reflexivity.
  - exact H.
  - cbn in A. subst s. exists (c :: t'). auto.
Qed.
Lemma number_start : forall base t, number base t -> exists d t', t = d :: t' /\ is_digit base d.
Proof.
  intros base t H. induction H as [d A|s d H (d0 & t' & -> & B) A|s d H (d0 & t' & -> & B) A].
  - exists d, []. auto.
  - exists d0, (t' ++ [d]). auto.
  - exists d0, (t' ++ [95; d]). auto.
Qed.
Lemma number_chars : forall base t, base_ok base -> number base t -> Forall (fun c => is_hex c = true \/ c = 95) t.
Proof.
  intros base t B H. assert (G : forall d, is_digit base d -> is_hex d = true).
  { intros d D. apply (good_hex base d B). apply good_digit; assumption. }
  induction H as [d A|s d H IH A|s d H IH A].
  - constructor; [left; auto|constructor].
  - apply Forall_app. split; [exact IH|]. constructor; [left; auto|constructor].
  - apply Forall_app. split; [exact IH|]. constructor; [right; reflexivity|]. constructor; [left; auto|constructor].
Qed.
Lemma number_decimal : forall t, number 10 t -> Forall (fun c => is_dec c = true \/ c = 95) t.
Proof.
  intros t H. induction H as [d A|s d H IH A|s d H IH A].
  - constructor; [left; apply is_digit_10; exact A|constructor].
  - apply Forall_app. split; [exact IH|]. constructor; [left; apply is_digit_10; exact A|constructor].
  - apply Forall_app. split; [exact IH|]. constructor; [right; reflexivity|]. constructor; [left; apply is_digit_10; exact A|constructor].
Qed.

(** Signs. *)
Definition lex_sign (s : isign) : option sign := match s with INone => None | IPlus => Some Plus | IMinus => Some Minus end.
Definition no_sign (s : str) : Prop := match s with c :: _ => c <> 43 /\ c <> 45 | [] => True end.
Lemma split_text : forall sg s, no_sign s -> split_sign (sign_text sg ++ s) = (lex_sign sg, s).
Proof.
  intros [| |] s N; try reflexivity. cbn [sign_text app]. unfold split_sign.
  change (lit "+") with [43]. change (lit "-") with [45]. destruct s as [|c s]; [reflexivity|]. destruct N as [N1 N2]. cbn [strip_prefix].
  assert ((43 =? c) = false) as -> by (apply Z.eqb_neq; lia). assert ((45 =? c) = false) as -> by (apply Z.eqb_neq; lia). reflexivity.
Qed.
Lemma split_sound : forall src sg num, split_sign src = (sg, num) -> exists s, sg = lex_sign s /\ src = sign_text s ++ num.
Proof.
  intros src sg num H. unfold split_sign in H. destruct (strip_prefix (lit "+") src) as [r|] eqn:P.
  - injection H as <- <-. apply strip_some in P. exists IPlus. auto.
  - destruct (strip_prefix (lit "-") src) as [r|] eqn:M.
    + injection H as <- <-. apply strip_some in M. exists IMinus. auto.
    + injection H as <- <-. exists INone. auto.
Qed.
Lemma digit_first : forall base d s, base_ok base -> is_digit base d -> no_sign (d :: s).
Proof.
  intros base d s B D. apply good_digit in D; [|exact B]. apply (good_hex base) in D; [|exact B]. cbn. split; intros ->; discriminate D.
Qed.
Lemma hexless : forall base t, base_ok base -> number base t -> ~ In 120 t.
Proof.
  intros base t B N H. pose proof (number_chars base t B N) as F. rewrite Forall_forall in F. destruct (F _ H) as [E|E]; discriminate E.
Qed.

(** The sign, the prefix and the digits decide where the rest begins. *)
Definition prefix_text (hex : bool) : str := if hex then lit "0x" else [].
Definition base_of (hex : bool) : Z := if hex then 16 else 10.
Lemma base_of_ok : forall hex, base_ok (base_of hex).
Proof. intros [|]; [left|right]; reflexivity. Qed.
Definition special_free (s : str) : Prop :=
  seqb s (lit "inf") = false /\ seqb s (lit "nan") = false /\ strip_prefix (lit "nan:0x") s = None.
Lemma digit_special : forall c s, is_dec c = true -> special_free (c :: s).
Proof.
  intros c s D. apply range_iff in D. unfold special_free. change (lit "inf") with [105; 110; 102]. change (lit "nan") with [110; 97; 110].
  change (lit "nan:0x") with [110; 97; 110; 58; 48; 120]. cbn [seqb strip_prefix].
  assert ((c =? 105) = false) as -> by (apply Z.eqb_neq; lia). assert ((c =? 110) = false) as -> by (apply Z.eqb_neq; lia).
  assert ((110 =? c) = false) as -> by (apply Z.eqb_neq; lia). auto.
Qed.
Lemma prefix_digits : forall hex t s, number (base_of hex) t ->
  (hex = false -> match s with c :: _ => c <> 120 | [] => True end) ->
  special_free (prefix_text hex ++ t ++ s) /\ no_sign (prefix_text hex ++ t ++ s) /\
  (match strip_prefix (lit "0x") (prefix_text hex ++ t ++ s) with Some r => (r, true) | None => (prefix_text hex ++ t ++ s, false) end) = (t ++ s, hex).
Proof.
  intros hex t s N X. destruct hex; cbn [prefix_text base_of] in *.
  - split; [apply digit_special; reflexivity|]. split; [cbn; lia|]. rewrite strip_app. reflexivity.
  - cbn [app]. destruct (number_start 10 t N) as (d & t' & -> & D). pose proof (proj1 (is_digit_10 d) D) as DD. cbn [app].
    split; [apply digit_special; exact DD|]. split; [eapply digit_first; [right; reflexivity|exact D]|].
    change (lit "0x") with [48; 120]. cbn [strip_prefix]. destruct (48 =? d); [|reflexivity].
    assert (Y : match t' ++ s with c :: _ => c <> 120 | [] => True end).
    { destruct t' as [|c t']; [cbn [app]; exact (X eq_refl)|]. cbn [app]. intros ->. apply (hexless 10 (d :: 120 :: t')); [right; reflexivity|exact N|]. right. left. reflexivity. }
    destruct (t' ++ s) as [|c r]; [reflexivity|]. assert ((120 =? c) = false) as -> by (apply Z.eqb_neq; lia). reflexivity.
Qed.
Lemma classify_int : forall l, il_wf l -> classify_number (il_text l) = Some (TInteger (has_us (il_digits l)) (lex_sign (il_sign l)) (il_hex l)).
Proof.
  intros [sg hex t] N. unfold il_wf, il_base, il_text in *. cbn [il_sign il_hex il_digits] in *.
  destruct (prefix_digits hex t [] N (fun _ => Logic.I)) as ((S1 & S2 & S3) & NS & PX). rewrite app_nil_r in *.
  match goal with |- classify_number (_ ++ ?p ++ _) = _ => change p with (prefix_text hex) end. unfold classify_number. rewrite split_text by exact NS. rewrite S1, S2, S3.
  match goal with |- (let '(_, _) := ?m in _) = _ => assert (m = (t, hex)) as -> by exact PX end.
  assert (E : (if hex then is_hex else is_dec) = good (base_of hex)) by (destruct hex; reflexivity). rewrite E.
  pose proof (skip_number (base_of hex) t [] (base_of_ok hex) N ltac:(cbn; auto)) as Q. rewrite app_nil_r in Q. rewrite Q. reflexivity.
Qed.
Lemma classify_int_sound : forall src u sg hex, classify_number src = Some (TInteger u sg hex) ->
  exists l, il_wf l /\ src = il_text l /\ u = has_us (il_digits l) /\ sg = lex_sign (il_sign l) /\ hex = il_hex l.
Proof.
  intros src u sg hex H. unfold classify_number in H. destruct (split_sign src) as [sg0 num] eqn:SP.
  apply split_sound in SP. destruct SP as (s & -> & ->).
  destruct (seqb num (lit "inf")); [discriminate|]. destruct (seqb num (lit "nan")); [discriminate|].
  destruct (strip_prefix (lit "nan:0x") num) as [st|].
  { destruct (skip_underscores is_hex st) as [[u0 [|c r]]|]; discriminate. }
  assert (EX : forall hx us it, exponent_part hx us it <> Some (TInteger u sg hex)).
  { intros hx us it. unfold exponent_part. destruct it as [|c it]; [discriminate|]. destruct (if hx then _ else _); [|discriminate].
    destruct (skip_underscores is_dec _) as [[u0 [|c' r]]|]; discriminate. }
  destruct (match strip_prefix (lit "0x") num with Some r => (r, true) | None => (num, false) end) as [it hx] eqn:PX.
  assert (NUM : num = prefix_text hx ++ it).
  { destruct (strip_prefix (lit "0x") num) as [r|] eqn:P0; injection PX as <- <-; [apply strip_some in P0; exact P0|reflexivity]. }
  assert (E : (if hx then is_hex else is_dec) = good (base_of hx)) by (destruct hx; reflexivity). rewrite E in H.
  destruct (skip_underscores (good (base_of hx)) it) as [[u0 [|c r]]|] eqn:SK; [| |discriminate].
  - injection H as <- <- <-. apply skip_sound in SK; [|apply base_of_ok]. destruct SK as (t & A & N & U). rewrite app_nil_r in A. subst it.
    exists (IntLit s hx t). unfold il_wf, il_text, il_base. cbn [il_sign il_hex il_digits]. subst num. auto.
  - exfalso. destruct (c =? 46).
    + destruct r as [|x r]; [exact (EX _ _ _ H)|]. destruct (good (base_of hx) x); [|exact (EX _ _ _ H)].
      destruct (skip_underscores _ (x :: r)) as [[v it']|]; [exact (EX _ _ _ H)|discriminate].
    + exact (EX _ _ _ H).
Qed.

(** The digits. *)
Lemma drop_id : forall s, has_us s = false -> drop_underscores s = s.
Proof.
  induction s as [|c s IH]; intros H; [reflexivity|]. unfold has_us in *. cbn [existsb] in H. apply orb_false_iff in H. destruct H as [A B].
  cbn [drop_underscores filter]. rewrite Z.eqb_sym, A. cbn [negb]. f_equal. apply IH. exact B.
Qed.
Lemma drop_0x_id : forall s, ~ In 120 s -> drop_0x s = s.
Proof.
  induction s as [|c s IH]; intros H; [reflexivity|]. cbn [drop_0x]. destruct s as [|d s]; [reflexivity|].
  assert ((d =? 120) = false) as -> by (apply Z.eqb_neq; intros ->; apply H; right; left; reflexivity). rewrite andb_false_r.
  rewrite IH; [reflexivity|]. intros I. apply H. right. exact I.
Qed.
Lemma drop_0x_prefix : forall s, drop_0x (48 :: 120 :: s) = drop_0x s.
Proof. reflexivity. Qed.
Lemma in_drop : forall c s, In c (drop_underscores s) -> In c s.
Proof. intros c s H. apply filter_In in H. tauto. Qed.
Lemma drop_app : forall a b, drop_underscores (a ++ b) = drop_underscores a ++ drop_underscores b.
Proof. intros. apply filter_app. Qed.
Definition minus_text (s : isign) : str := match s with IMinus => [45] | _ => [] end.
Lemma token_digits : forall l, il_wf l ->
  token_integer (has_us (il_digits l)) (lex_sign (il_sign l)) (il_hex l) (il_text l) =
  (minus_text (il_sign l) ++ drop_underscores (il_digits l), il_base l).
Proof.
  intros [sg hex t] N. unfold il_wf, il_base, il_text, token_integer in *. cbn [il_sign il_hex il_digits] in *. f_equal.
  assert (NX : ~ In 120 (drop_underscores t)).
  { intros H. apply in_drop in H. revert H. eapply hexless; [apply (base_of_ok hex)|destruct hex; exact N]. }
  assert (V : match lex_sign sg with Some Plus => strip_or (lit "+") (sign_text sg ++ prefix_text hex ++ t) | _ => sign_text sg ++ prefix_text hex ++ t end
     = minus_text sg ++ prefix_text hex ++ t) by (destruct sg; reflexivity).
  repeat match goal with |- context [sign_text sg ++ ?p ++ t] => progress change p with (prefix_text hex) end. rewrite V.
  assert (U : (if has_us t then drop_underscores (minus_text sg ++ prefix_text hex ++ t) else minus_text sg ++ prefix_text hex ++ t)
     = minus_text sg ++ prefix_text hex ++ drop_underscores t).
  { destruct (has_us t) eqn:HU.
    - rewrite !drop_app. f_equal; [destruct sg; reflexivity|]. f_equal. destruct hex; reflexivity.
    - rewrite (drop_id t HU). reflexivity. }
  rewrite U. destruct hex; [|reflexivity]. cbn [prefix_text]. change (lit "0x" ++ drop_underscores t) with (48 :: 120 :: drop_underscores t).
  destruct sg; cbn [minus_text app]; try (rewrite drop_0x_prefix; apply drop_0x_id; exact NX).
  cbn [drop_0x]. change (45 =? 48) with false. cbn [andb]. change (48 =? 48) with true. change (120 =? 120) with true. cbn [andb].
  f_equal. apply drop_0x_id. exact NX.
Qed.

Lemma mag_acc : forall base s n, fold_left (fun n c => match digit_value c with Some v => n * base + v | None => n end) s n
  = n * base ^ zlen (filter (fun c => match digit_value c with Some _ => true | None => false end) s) + magnitude base s.
Proof.
  intros base s. unfold magnitude. induction s as [|c s IH]; intros n.
  - cbn [fold_left filter]. rewrite zlen_nil, Z.pow_0_r. lia.
  - cbn [fold_left filter]. destruct (digit_value c) as [v|].
    + rewrite IH. rewrite (IH (0 * base + v)). rewrite zlen_cons. rewrite Z.pow_add_r by (try apply zlen_nonneg; lia). rewrite Z.pow_1_r. lia.
    + apply IH.
Qed.
Lemma mag_nonneg : forall base s, 0 < base -> 0 <= magnitude base s.
Proof.
  intros base s B. unfold magnitude. cut (forall n, 0 <= n -> 0 <= fold_left (fun n c => match digit_value c with Some v => n * base + v | None => n end) s n).
  { intros H. apply H. lia. }
  induction s as [|c s IH]; intros n N; [exact N|]. cbn [fold_left]. apply IH. destruct (digit_value c) as [v|] eqn:D; [|exact N].
  apply digit_value_hex in D. destruct D as [D ->]. apply to_hex_range in D. nia.
Qed.
Lemma underscore_no_value : digit_value 95 = None.
Proof. reflexivity. Qed.
Lemma mag_drop : forall base s, magnitude base (drop_underscores s) = magnitude base s.
Proof.
  intros base s. unfold magnitude. generalize 0. induction s as [|c s IH]; intros n; [reflexivity|].
  cbn [drop_underscores filter fold_left]. destruct (c =? 95) eqn:E; cbn [negb].
  - apply Z.eqb_eq in E. subst c. rewrite underscore_no_value. apply IH.
  - cbn [fold_left]. apply IH.
Qed.
Lemma digit_of : forall base c, base_ok base -> is_digit base c -> to_digit base c = Some (to_hex c) /\ digit_value c = Some (to_hex c) /\ 0 <= to_hex c < base.
Proof.
  intros base c B (v & A & L). apply digit_value_hex in A as A'. destruct A' as [H E]. subst v. pose proof (to_hex_range c H) as R. split; [|split; [exact A|lia]].
  unfold to_digit. rewrite H. apply Z.ltb_lt in L. rewrite L. reflexivity.
Qed.
Definition accum (base n : Z) (s : str) : Z := fold_left (fun n c => match digit_value c with Some v => n * base + v | None => n end) s n.
Lemma accum_ge : forall base s n, base_ok base -> 0 <= n -> n <= accum base n s.
Proof.
  intros base s n B N. unfold accum. assert (1 <= base) by (destruct B; lia). rewrite mag_acc.
  pose proof (mag_nonneg base s ltac:(lia)) as M.
  pose proof (Z.pow_pos_nonneg base (zlen (filter (fun c => match digit_value c with Some _ => true | None => false end) s)) ltac:(lia) (zlen_nonneg _)) as P. nia.
Qed.
Lemma radix_pos : forall lo hi base, base_ok base -> lo <= 0 -> forall s n, Forall (is_digit base) s -> 0 <= n <= hi ->
  radix_loop lo hi base true n s = if accum base n s <=? hi then Some (accum base n s) else None.
Proof.
  intros lo hi base B LO. induction s as [|c s IH]; intros n F N.
  - cbn [radix_loop]. unfold accum. cbn [fold_left]. assert (n <=? hi = true) as -> by (apply Z.leb_le; lia). reflexivity.
  - inversion_clear F as [|? ? D F']. destruct (digit_of base c B D) as (TD & DV & R). cbn [radix_loop].
    assert (A : accum base n (c :: s) = accum base (n * base + to_hex c) s) by (unfold accum; cbn [fold_left]; rewrite DV; reflexivity).
    assert (BB : 10 <= base) by (destruct B; lia).
    assert (GE : n * base + to_hex c <= accum base (n * base + to_hex c) s) by (apply accum_ge; [exact B|nia]).
    assert ((n * base <? lo) = false) as -> by (apply Z.ltb_ge; nia). cbn [orb]. rewrite TD.
    destruct (hi <? n * base) eqn:E1.
    + apply Z.ltb_lt in E1. rewrite A. assert ((accum base (n * base + to_hex c) s <=? hi) = false) as -> by (apply Z.leb_gt; lia). reflexivity.
    + assert ((n * base + to_hex c <? lo) = false) as -> by (apply Z.ltb_ge; nia). cbn [orb].
      destruct (hi <? n * base + to_hex c) eqn:E2.
      * apply Z.ltb_lt in E2. rewrite A. assert ((accum base (n * base + to_hex c) s <=? hi) = false) as -> by (apply Z.leb_gt; lia). reflexivity.
      * apply Z.ltb_ge in E2. rewrite A. apply IH; [exact F'|]. nia.
Qed.
Lemma radix_neg : forall lo hi base, base_ok base -> 0 <= hi -> forall s n, Forall (is_digit base) s -> lo <= - n -> 0 <= n ->
  radix_loop lo hi base false (- n) s = if lo <=? - accum base n s then Some (- accum base n s) else None.
Proof.
  intros lo hi base B HI. induction s as [|c s IH]; intros n F N N0.
  - cbn [radix_loop]. unfold accum. cbn [fold_left]. assert (lo <=? - n = true) as -> by (apply Z.leb_le; lia). reflexivity.
  - inversion_clear F as [|? ? D F']. destruct (digit_of base c B D) as (TD & DV & R). cbn [radix_loop].
    assert (A : accum base n (c :: s) = accum base (n * base + to_hex c) s) by (unfold accum; cbn [fold_left]; rewrite DV; reflexivity).
    assert (BB : 10 <= base) by (destruct B; lia).
    assert (GE : n * base + to_hex c <= accum base (n * base + to_hex c) s) by (apply accum_ge; [exact B|nia]).
    assert ((hi <? - n * base) = false) as -> by (apply Z.ltb_ge; nia). rewrite orb_false_r. rewrite TD.
    destruct (- n * base <? lo) eqn:E1.
    + apply Z.ltb_lt in E1. rewrite A. assert ((lo <=? - accum base (n * base + to_hex c) s) = false) as -> by (apply Z.leb_gt; lia). reflexivity.
    + replace (- n * base - to_hex c) with (- (n * base + to_hex c)) by lia.
      assert ((hi <? - (n * base + to_hex c)) = false) as -> by (apply Z.ltb_ge; nia). rewrite orb_false_r.
      destruct (- (n * base + to_hex c) <? lo) eqn:E2.
      * apply Z.ltb_lt in E2. rewrite A. assert ((lo <=? - accum base (n * base + to_hex c) s) = false) as -> by (apply Z.leb_gt; lia). reflexivity.
      * apply Z.ltb_ge in E2. rewrite A. apply IH; [exact F'|lia|nia].
Qed.
Lemma dropped_digits : forall base t, base_ok base -> number base t -> Forall (is_digit base) (drop_underscores t) /\ drop_underscores t <> [].
Proof.
  intros base t B H. assert (G : forall d, is_digit base d -> drop_underscores [d] = [d]).
  { intros d D. apply good_digit in D; [|exact B]. apply (good_hex base) in D; [|exact B]. cbn [drop_underscores filter]. rewrite (hex_not_us d D). reflexivity. }
  induction H as [d A|s d H [IH NE] A|s d H [IH NE] A].
  - rewrite G by exact A. split; [constructor; [exact A|constructor]|discriminate].
  - rewrite drop_app, G by exact A. split; [apply Forall_app; split; [exact IH|constructor; [exact A|constructor]]|]. destruct (drop_underscores s); discriminate.
  - change [95; d] with ([95] ++ [d]). rewrite !drop_app, (G d A). change (drop_underscores [95]) with (@nil Z). cbn [app].
    split; [apply Forall_app; split; [exact IH|constructor; [exact A|constructor]]|]. destruct (drop_underscores s); discriminate.
Qed.
(** [from_str_radix] of a sign and digits. *)
Lemma radix_text : forall lo hi base sg s, base_ok base -> lo <= 0 <= hi -> Forall (is_digit base) s -> s <> [] ->
  from_str_radix lo hi (minus_text sg ++ s) base =
  match sg with
  | IMinus => if (lo <? 0) && (lo <=? - accum base 0 s) then Some (- accum base 0 s) else None
  | _ => if accum base 0 s <=? hi then Some (accum base 0 s) else None
  end.
Proof.
  intros lo hi base sg s B R F NE.
  assert (P : from_str_radix lo hi s base = if accum base 0 s <=? hi then Some (accum base 0 s) else None).
  { destruct s as [|c s]; [contradiction|]. assert (D : is_digit base c) by (inversion F; assumption).
    destruct (digit_first base c s B D) as [N1 N2]. unfold from_str_radix.
    assert ((c =? 43) = false) as -> by (apply Z.eqb_neq; exact N1). assert ((c =? 45) = false) as -> by (apply Z.eqb_neq; exact N2). cbn [orb andb].
    apply radix_pos; [exact B|lia|exact F|lia]. }
  destruct sg; cbn [minus_text app]; try exact P.
  unfold from_str_radix. change (45 =? 43) with false. change (45 =? 45) with true. cbn [orb andb].
  destruct s as [|c s]; [contradiction|]. cbv iota. destruct (lo <? 0) eqn:E; cbn [andb].
  - rewrite <- (radix_neg lo hi base B ltac:(lia) (c :: s) 0 F) by lia. reflexivity.
  - cbn [radix_loop]. assert ((0 * base <? lo) = false) as -> by (apply Z.ltb_ge; apply Z.ltb_ge in E; lia).
    assert ((hi <? 0 * base) = false) as -> by (apply Z.ltb_ge; lia). cbn [orb].
    unfold to_digit. change (is_hex 45) with false. reflexivity.
Qed.
Lemma mod_unique : forall M a b, a mod M = b mod M -> - M < a - b < M -> a = b.
Proof. intros M a b H R. assert (M <> 0) by lia. pose proof (Z.div_mod a M ltac:(lia)). pose proof (Z.div_mod b M ltac:(lia)).
  assert (a - b = M * (a / M - b / M)) by lia. assert (a / M - b / M = 0) by nia. nia. Qed.
Lemma mod_minus : forall M a, 0 < M -> (a mod M - M) mod M = a mod M.
Proof. intros M a H. replace (a mod M - M) with (a mod M + (-1) * M) by lia. rewrite Z.mod_add by lia. apply Z.mod_mod. lia. Qed.
(** Which integers a type can be given. *)
Definition representable (signed : bool) (n : Z) (l : int_lit) : Prop :=
  if signed then - 2 ^ (n - 1) <= il_value l < 2 ^ n else il_sign l <> IMinus /\ il_value l < 2 ^ n.
Definition width_ok (n : Z) : Prop := n = 8 \/ n = 16 \/ n = 32 \/ n = 64.
Lemma int_value : forall l signed n x, il_wf l -> width_ok n ->
  parse_int signed n (TInteger (has_us (il_digits l)) (lex_sign (il_sign l)) (il_hex l)) (il_text l) = Some x <->
  representable signed n l /\ (if signed then in_s n x else in_u n x) /\ x mod 2 ^ n = il_value l mod 2 ^ n.
Proof.
  intros l signed n x W WN. unfold parse_int. rewrite token_digits by exact W. unfold int_of, i_from, u_from.
  destruct (dropped_digits (il_base l) (il_digits l) (base_of_ok (il_hex l)) W) as [F NE].
  assert (PW : 2 ^ n = 2 * 2 ^ (n - 1)) by (destruct WN as [-> |[-> |[-> | ->]]]; reflexivity).
  assert (PP : 0 < 2 ^ (n - 1)) by (destruct WN as [-> |[-> |[-> | ->]]]; reflexivity).
  rewrite !radix_text; try assumption; try lia; try apply (base_of_ok (il_hex l)).
  assert (AC : accum (il_base l) 0 (drop_underscores (il_digits l)) = magnitude (il_base l) (il_digits l)) by apply mag_drop. rewrite AC.
  pose proof (mag_nonneg (il_base l) (il_digits l) ltac:(unfold il_base; destruct (il_hex l); lia)) as M0.
  unfold representable, il_value, in_s, in_u, wraps. set (m := magnitude (il_base l) (il_digits l)) in *.
  set (P := 2 ^ (n - 1)) in *. clearbody P. rewrite !PW. clear AC.
  destruct signed; destruct (il_sign l); cbn [andb];
    repeat match goal with |- context [?a <=? ?b] => let E := fresh "E" in destruct (a <=? b) eqn:E; [apply Z.leb_le in E|apply Z.leb_gt in E] end;
    repeat match goal with |- context [?a <? ?b] => let E := fresh "E" in destruct (a <? b) eqn:E; [apply Z.ltb_lt in E|apply Z.ltb_ge in E] end;
    cbn [andb]; try lia;
    (split; [intros H; try discriminate H; try (injection H as <-); repeat split; try congruence; try lia
            |intros (H1 & H2 & H3); try (exfalso; lia)]).
  all: try (exfalso; tauto).
  all: try match goal with |- Some _ = Some _ => f_equal; apply (mod_unique (2 * P)); [|lia] end.
  all: try (rewrite Z.mod_mod by lia); try (rewrite mod_minus by lia); try assumption; try congruence; try lia.
  all: try (rewrite (Z.mod_small m) in * by lia); try (assert (m mod (2 * P) = m) as MS by (apply Z.mod_small; lia); rewrite MS in * ); try lia.
  all: pose proof (Z.mod_pos_bound m (2 * P) ltac:(lia)); lia.
Qed.
Lemma text_idchars : forall l, il_wf l -> Forall (fun c => idchar c = true) (il_text l) /\ il_text l <> [].
Proof.
  intros [sg hex t] N. unfold il_wf, il_text, il_base in *. cbn [il_sign il_hex il_digits] in *. split.
  - apply Forall_app. split; [destruct sg; repeat constructor|]. apply Forall_app. split; [destruct hex; repeat constructor|].
    eapply Forall_impl; [|apply (number_chars (base_of hex)); [apply base_of_ok|exact N]]. intros c [H| ->]; [apply hex_idchar; exact H|reflexivity].
  - destruct (number_start _ _ N) as (d & t' & -> & _). destruct sg, hex; discriminate.
Qed.
