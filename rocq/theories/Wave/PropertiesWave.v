(** C38: WAVE text. *)
From Coq Require Import ZArith Lia List Bool String Arith Sorted.
From Verif Require Import Base.Prelude Names.Kebab Names.KebabProofs Text.Numbers Wave.Model Wave.Spec Wave.LexProofs Wave.Proofs Wave.SoundProofs.
Import ListNotations.
Open Scope Z_scope.

Lemma finish_nil : finish [] = Good tt.
Proof. reflexivity. Qed.

Section Props.
(** Whatever the Unicode tables are, and however the standard library writes
    floats, as long as it reads back what it writes. *)
Variable grapheme_extended printable : Z -> bool.
Variable fmt_float : Z -> Z -> str.
Variable parse_float : Z -> str -> option Z.
Notation write_value := (write_value grapheme_extended printable fmt_float).
Notation from_str := (from_str parse_float).

(** A value nested no deeper than the parser's limit is read back from its text as
    it was, for every type and every value of it. *)
Theorem C38_roundtrip_partial : float_contract fmt_float parse_float -> forall t v, ty_ok t -> has_type t v -> (depth v <= 100)%nat ->
  from_str t (write_value t v) = Good v.
Proof.
  intros C t v O H D. destruct (round_trip grapheme_extended printable fmt_float parse_float C 100 t v O H D) as (n & R & T).
  unfold Model.from_str. specialize (R [] (or_introl eq_refl)). rewrite app_nil_r in R. unfold MAX_DEPTH. rewrite R. cbn [bind]. rewrite T. reflexivity.
Qed.
(** Every character and every string. *)
Theorem C38_char : forall c, scalar c -> from_str TChar (write_value TChar (VChar c)) = Good (VChar c).
Proof.
  intros c H. unfold Model.from_str. change (write_value TChar (VChar c)) with (39 :: write_char grapheme_extended printable c ++ [39]). change (parse_node MAX_DEPTH) with (parse_node_inner (parse_node 99)). unfold parse_node_inner at 1, advance at 1.
  pose proof (lex_chr grapheme_extended printable c [] H) as L. rewrite app_nil_r in L. rewrite L. cbn [bind to_wasm_value]. rewrite char_back by exact H. reflexivity.
Qed.
Theorem C38_string : forall s, Forall scalar s -> from_str TString (write_value TString (VString s)) = Good (VString s).
Proof.
  intros s H. unfold Model.from_str. change (write_value TString (VString s)) with (34 :: flat_map (write_char grapheme_extended printable) s ++ [34]). change (parse_node MAX_DEPTH) with (parse_node_inner (parse_node 99)). unfold parse_node_inner at 1, advance at 1.
  pose proof (lex_str grapheme_extended printable s [] H (or_introl eq_refl)) as L. rewrite app_nil_r in L. rewrite L. cbn [bind to_wasm_value]. rewrite str_back by exact H. reflexivity.
Qed.
(** Whatever text is read, the value is one of the type asked for: numbers in
    range, characters scalar values, flags each once and in order, every field
    present, payloads where and only where the type has one. *)
Theorem C38_typed : (forall w s b, w = 32 \/ w = 64 -> parse_float w s = Some b -> in_u w b) -> forall t src v, ty_ok t -> Forall scalar src ->
  from_str t src = Good v -> has_type t v.
Proof.
  intros R t src v O F H. unfold Model.from_str in H. apply bind_good in H as ((n & r) & E & H). apply bind_good in H as (v' & V & H). apply bind_good in H as (u & _ & H). injection H as <-.
  destruct (parse_ok MAX_DEPTH) as (P & _). apply P in E as (Q & _). destruct (Q F) as (N & _). eapply value_sound; eauto.
Qed.
(** Reading ends: no text makes it loop. *)
Theorem C38_total : forall t src, from_str t src <> Fuel.
Proof.
  intros t src H. unfold Model.from_str in H. apply bind_fuel in H as [H|((n & r) & _ & H)]; [now apply (proj2 (parse_ok MAX_DEPTH)) in H|]. apply bind_fuel in H as [H|(? & _ & H)]; [exact (value_total parse_float t n H)|].
  apply bind_fuel in H as [H|(? & _ & H)]; [|discriminate]. unfold finish in H. destruct (lex r); discriminate.
Qed.
(** A value which was read, if not nested too deep, is read again from the text
    written for it. *)
Theorem C38_read_again_partial : float_contract fmt_float parse_float -> (forall w s b, w = 32 \/ w = 64 -> parse_float w s = Some b -> in_u w b) ->
  forall t src v, ty_ok t -> Forall scalar src -> from_str t src = Good v -> (depth v <= 100)%nat -> from_str t (write_value t v) = Good v.
Proof. intros C R t src v O F H D. apply C38_roundtrip_partial; try assumption. eapply C38_typed; eauto. Qed.

(** What is written is never taken for more or less of the text: followed by a
    comma or a closing bracket, the same node is read and the rest left alone. *)
Theorem C38_delimited_partial : float_contract fmt_float parse_float -> forall t v, ty_ok t -> has_type t v -> (depth v <= 100)%nat ->
  exists n, to_wasm_value parse_float t n = Good v /\ forall c rest, c = 44 \/ c = 41 \/ c = 93 \/ c = 125 -> parse_node 100 (write_value t v ++ c :: rest) = Good (n, c :: rest).
Proof.
  intros C t v O H D. destruct (round_trip grapheme_extended printable fmt_float parse_float C 100 t v O H D) as (n & R & T). exists n. split; [exact T|]. intros c rest Hc. apply R. apply delim_cons. cbn [In]. intuition auto.
Qed.

(** ** What does not hold. *)
(** Values nested deeper than the limit are written but not read back. *)
Fixpoint nest_ty (n : nat) : ty := match n with O => TBool | S n => TList (nest_ty n) end.
Fixpoint nest (n : nat) : value := match n with O => VBool true | S n => VList [nest n] end.
Theorem C38_deep_refuted : ty_ok (nest_ty 100) /\ has_type (nest_ty 100) (nest 100) /\ depth (nest 100) = 101%nat /\ from_str (nest_ty 100) (write_value (nest_ty 100) (nest 100)) = Fail NestingTooDeep.
Proof.
  split; [|split; [|split; [vm_compute; reflexivity|vm_compute; reflexivity]]].
  - generalize 100%nat. intros n. induction n; constructor; assumption.
  - generalize 100%nat. intros n. induction n; constructor; [constructor; [assumption|constructor]].
Qed.
(** A text within the limit can give a value whose own text is beyond it: the
    reader supplies the [some] which the writer writes. *)
Fixpoint flat_ty (n : nat) : ty := match n with O => TBool | S n => TList (TOption (flat_ty n)) end.
Fixpoint flat_text (n : nat) : str := match n with O => lit "true" | S n => 91 :: flat_text n ++ [93] end.
Theorem C38_read_again_refuted : ty_ok (flat_ty 60) /\ exists v, from_str (flat_ty 60) (flat_text 60) = Good v /\ from_str (flat_ty 60) (write_value (flat_ty 60) v) = Fail NestingTooDeep.
Proof.
  split; [generalize 60%nat; intros n; induction n; repeat constructor; assumption|].
  eexists. split; [vm_compute; reflexivity|]. vm_compute. reflexivity.
Qed.
(** [make_flags] takes a name twice; the text of what it makes is refused. *)
Theorem C38_flags_refuted : exists v, make_flags [lit "a"; lit "b"] [lit "a"; lit "a"] = Good v /\
  write_value (TFlags [lit "a"; lit "b"]) v = lit "{a, a}" /\ from_str (TFlags [lit "a"; lit "b"]) (lit "{a, a}") = Fail DuplicateFlag.
Proof. eexists. split; [vm_compute; reflexivity|split; vm_compute; reflexivity]. Qed.
(** A field the type does not have is not refused, so a misspelt optional field is
    silently absent. *)
Theorem C38_unknown_field_refuted : exists v, from_str (TRecord [(lit "color", TOption (TInt false 8))]) (lit "{colour: 7}") = Good v /\ v = VRecord [VOption None].
Proof. eexists. split; [vm_compute; reflexivity|reflexivity]. Qed.
(** A name may be written with a percent sign in records, variants and enums but
    not in flags. *)
Theorem C38_percent_flags_refuted : from_str (TRecord [(lit "a", TBool)]) (lit "{%a: true}") = Good (VRecord [VBool true]) /\
  from_str (TEnum [lit "a"]) (lit "%a") = Good (VEnum 0) /\ from_str (TFlags [lit "a"]) (lit "{%a}") = Fail WasmValueError.
Proof. repeat split; vm_compute; reflexivity. Qed.
End Props.
Print Assumptions C38_roundtrip_partial.
Print Assumptions C38_char.
Print Assumptions C38_string.
Print Assumptions C38_typed.
Print Assumptions C38_total.
Print Assumptions C38_read_again_partial.
Print Assumptions C38_delimited_partial.
Print Assumptions C38_deep_refuted.
Print Assumptions C38_read_again_refuted.
Print Assumptions C38_flags_refuted.
Print Assumptions C38_unknown_field_refuted.
Print Assumptions C38_percent_flags_refuted.

(** The hypotheses are met. *)
Definition toy_fmt (w b : Z) : str := fmt_int b.
Definition toy_parse (w : Z) (s : str) : option Z := if same s (lit "nan") then Some (canonical_nan w) else u_from w s 10.
Lemma toy_contract : float_contract toy_fmt toy_parse /\ forall w s b, w = 32 \/ w = 64 -> toy_parse w s = Some b -> in_u w b.
Proof.
  assert (forall w, w = 32 \/ w = 64 -> width w) as W by (unfold width; tauto). split.
  - intros w Hw. split.
    + exists (canonical_nan w). split; [reflexivity|]. destruct Hw as [->| ->]; vm_compute; repeat split; congruence.
    + intros b Hb _. destruct (fmt_int_text b) as (T & _). split; [exact T|]. unfold toy_parse, toy_fmt. rewrite same_neq; [exact (int_back false w b (W w Hw) Hb)|].
      intros E. rewrite E in T. destruct T as [T|[T|(m & i & f & e & T & M & Di & _)]]; try discriminate T.
      assert (hd 0 (lit "nan") = 45 \/ dg (hd 0 (lit "nan")) = true) as [X|X]; [|discriminate X|discriminate X]. rewrite T. destruct M as [->| ->]; [|now left]. right.
      destruct Di as [->|((NE & Fd) & _)]; [reflexivity|]. destruct i; [contradiction|]. now inversion Fd.
  - intros w s b Hw. unfold toy_parse. destruct (same s (lit "nan")); [intros [= <-]; destruct Hw as [->| ->]; vm_compute; split; congruence|]. intros H. apply (int_range false w s b (W w Hw) H).
Qed.
Definition example_ty : ty :=
  TRecord [(lit "name", TString); (lit "nick", TOption TString); (lit "true", TList (TTuple [TInt true 8; TChar]));
           (lit "kind", TVariant [(lit "some", None); (lit "PLAIN-b2", Some (TResult None (Some (TEnum [lit "ok"; lit "z"]))))]);
           (lit "fs", TFlags [lit "r"; lit "w"; lit "inf"]); (lit "x", TFloat 32); (lit "y", TFloat 64)].
Definition example_value : value :=
  VRecord [VString [65; 10; 34; 0x1f600; 0; 7]; VOption None; VList [VTuple [VInt (-128); VChar 39]; VTuple [VInt 0; VChar 955]];
           VVariant 1 (Some (VResult false (Some (VEnum 0)))); VFlags [0%nat; 2%nat]; VFloat 0x7fc00000; VFloat 5].
Example C38_case : ty_ok example_ty /\ has_type example_ty example_value /\ (depth example_value <= 100)%nat /\
  from_str toy_parse example_ty (write_value (fun _ => false) (fun _ => true) toy_fmt example_ty example_value) = Good example_value /\
  write_value (fun _ => false) (fun _ => true) toy_fmt (TVariant [(lit "some", None)]) (VVariant 0 None) = lit "%some".
Proof.
  assert (forall s, is_kebab_case s = true -> label s) as K by (intros s; apply kebab_label).
  split; [|split; [|split; [vm_compute; lia|split; vm_compute; reflexivity]]].
  - unfold example_ty.
    repeat (cbn [snd fst List.map]; match goal with
      | |- ty_ok _ => constructor | |- Forall _ _ => constructor | |- names_ok _ => split | |- NoDup _ => constructor
      | |- label _ => apply K; reflexivity | |- ~ In _ _ => cbn; intuition discriminate
      | |- width _ => unfold width; tauto | |- _ \/ _ => tauto | |- _ <> _ => discriminate
      | H : In _ _ |- _ => cbn [In] in H; destruct H as [H|[H|[]]] | H : (_, _) = (_, Some _) |- _ => injection H as ? ?
      | H : None = Some _ |- _ => discriminate H | H : Some _ = Some _ |- _ => injection H as ? | H : _ = ?t |- ty_ok ?t => rewrite <- H; clear H
      | H : (_, None) = (_, Some _) |- _ => discriminate H
      | |- forall _, _ => intros end).
  - unfold example_ty, example_value. constructor. repeat (apply Forall2_cons; cbn [snd]); try apply Forall2_nil.
    + constructor. repeat (constructor; [unfold scalar; lia|]). constructor.
    + constructor.
    + constructor. repeat constructor; unfold scalar; lia.
    + apply (H_variant _ 1 (lit "PLAIN-b2") (Some (TResult None (Some (TEnum [lit "ok"; lit "z"]))))); [reflexivity|]. constructor. constructor. constructor. constructor. cbn. lia.
    + constructor; [repeat constructor; lia|repeat constructor; cbn; lia].
    + constructor; [vm_compute; split; congruence|reflexivity].
    + constructor; [vm_compute; split; congruence|intros (X & _); vm_compute in X; discriminate].
Qed.
